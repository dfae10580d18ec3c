(** Vocabulary of the routing properties. *)
From Coq Require Import NArith ZArith List Bool.
From Verif Require Import Base TextModel KeyResolverModel KeyResolverSpec ClusterModel ClusterSpec NodeModel NodeSpec RoutingModel.
Import ListNotations.
Local Open Scope Z_scope.

(** [k] is the active master of partition [p]. *)
Definition active_master (m : node_map) (p : Z) (k : bytes) : Prop :=
  exists n, nfind k m = Some n /\ n_role n = Master /\ n_state n = Active /\ n_partition n = p.
(** [k] is a slave of partition [p], active or preparing. *)
Definition live_slave (m : node_map) (p : Z) (k : bytes) : Prop :=
  exists n, nfind k m = Some n /\ n_role n = Slave /\ live n /\ n_partition n = p.
(** [k] is a master that is preparing to take partition [p]. *)
Definition preparing_master (m : node_map) (p : Z) (k : bytes) : Prop :=
  exists n, nfind k m = Some n /\ n_role n = Master /\ (n_state n = Prepare \/ n_state n = Ready) /\ n_partition n = p.
(** The read balance of node [k] of partition [p]: 0 unless it is active. *)
Definition read_balance (m : node_map) (p : Z) (k : bytes) : Z :=
  match nfind k m with
  | Some n => if (n_partition n =? p) && state_eqb (n_state n) Active && negb (role_eqb (n_role n) Proxy) then n_balance n else 0
  | None => 0
  end.

(** How often [k] occurs in [l]. *)
Definition times (k : bytes) (l : list bytes) : nat := List.length (filter (beq k) l).
(** [k] can answer reads of partition [p]: its active master, or an active slave with a
    positive read balance. *)
Definition reader (m : node_map) (p : Z) (k : bytes) : Prop :=
  active_master m p k \/ (live_slave m p k /\ 0 < read_balance m p k).
(** The name in the entry of node [k] satisfies [near]. *)
Definition close (near : bytes -> bool) (m : node_map) (k : bytes) : bool :=
  match nfind k m with Some n => near (n_name n) | None => false end.

(** The nodes serve [n] of the pending requests, in any order; [ex] are the nodes that
    execute the write, in that order. *)
Inductive serves (c : config) (tab : bytes -> copy) (h : Z) : nat -> list req -> list bytes -> list req -> Prop :=
| serves_refl l : serves c tab h 0 l [] l
| serves_step n l1 q l2 e new ex l' :
    serve c tab h q = Ok (e, new) -> serves c tab h n (l1 ++ l2 ++ new) ex l' -> serves c tab h (S n) (l1 ++ q :: l2) (e ++ ex) l'.

(** The number of partitions that the index server has handed out. *)
Definition partitions (s : index) : nat := List.length (i_parts s).
(** All nodes have the map of the index server in state [s]; a key with hash [h] belongs
    to partition [p], and it will belong to partition [p'] when there is one more. *)
Definition agreed (c : config) (s : index) (tab : bytes -> copy) (h : Z) (p p' : nat) : Prop :=
  history s /\ (forall k, exists near, shows near (tab k) (i_map s)) /\ valid c /\ (0 <= h)%Z /\
  (1 <= partitions s)%nat /\ (S (partitions s) < c_partition_size c)%nat /\
  resolve c h (partitions s) = Some p /\ resolve c h (S (partitions s)) = Some p'.
(** The key is about to move to a new partition whose master is being prepared. *)
Definition moves (s : index) (p' : nat) : Prop :=
  p' = partitions s /\ exists k, preparing_master (i_map s) (Z.of_nat (partitions s)) k.
(** The nodes that must hold the key. *)
Definition holder (s : index) (p p' : nat) (k : bytes) : Prop :=
  active_master (i_map s) (Z.of_nat p) k \/ live_slave (i_map s) (Z.of_nat p) k \/
  (moves s p' /\ (preparing_master (i_map s) (Z.of_nat p') k \/ live_slave (i_map s) (Z.of_nat p') k)).
