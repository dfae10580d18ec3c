(** A cluster as its clients see it: requests put to any of its nodes. *)
From Coq Require Import NArith ZArith List Bool.
From Verif Require Import Base TextSpec StorageSpec KeyResolverModel ClusterModel NodeModel RoutingModel RoutingSpec MemcachedSpec.
Import ListNotations.

(** All nodes have the map of the index server, every key has an active master, its [owner], and reads are not
    directed to slaves. *)
Definition settled (c : config) (s : index) (tab : bytes -> copy) (hash : bytes -> Z) (owner : bytes -> bytes) : Prop :=
  forall k, legal_key k -> exists p p', agreed c s tab (hash k) p p' /\ active_master (i_map s) (Z.of_nat p) (owner k)
    /\ (0 < read_balance (i_map s) (Z.of_nat p) (owner k))%Z
    /\ forall y, live_slave (i_map s) (Z.of_nat p) y -> (read_balance (i_map s) (Z.of_nat p) y <= 0)%Z.

(** A request put to node [t_node], which reads it at the clock value [t_asked]; [t_now] is the clock value at the
    node that executes it, [t_pick] the random numbers drawn for the keys. *)
Record turn := mkTurn { t_node : bytes; t_pick : bytes -> nat; t_asked : Z; t_now : Z; t_call : call }.
Inductive dialogue : memory -> list turn -> memory -> list bytes -> Prop :=
| talk_nil m : dialogue m [] m []
| talk_cons m t m1 a l m2 b : does (t_asked t) (t_now t) m (t_call t) m1 a -> dialogue m1 l m2 b -> dialogue m (t :: l) m2 (a :: b).

(** The client wants an answer. *)
Definition replied (c : call) : Prop :=
  match c with
  | Store _ _ _ _ _ nr | Cas _ _ _ _ _ nr | Touch _ _ nr | Gat _ _ nr | Delete _ nr | Count _ _ _ nr => nr = false
  | _ => True
  end.
Definition subject (c : call) (k : bytes) : Prop :=
  match c with
  | Store _ k' _ _ _ _ | Cas k' _ _ _ _ _ | Touch k' _ _ | Gat k' _ _ | Delete k' _ | Count _ k' _ _ => k = k'
  | Get _ ks => In k ks
  | _ => False
  end.
Definition clock (t : Z) : Prop := (2592000 <= t < 2 ^ 62)%Z.
(** A client that does not want an answer asks the owner of the key itself; nobody uses flush_all. *)
Definition proper (owner : bytes -> bytes) (t : turn) : Prop :=
  legal_node_name (t_node t) /\ clock (t_asked t) /\ legal_call (t_call t) /\ (forall nr, t_call t <> Flush nr) /\
  (replied (t_call t) \/ forall k, subject (t_call t) k -> t_node t = owner k).
Definition calls (l : list turn) : list (Z * call) := map (fun t => (t_now t, t_call t)) l.
