(** Vocabulary of the properties of the start of a node. *)
From Coq Require Import NArith ZArith List Bool String.
From Verif Require Import Base TextModel TextSpec KeyResolverModel NamesModel ClusterModel ClusterSpec NodeModel NodeSpec StartupModel.
Import ListNotations.
Local Open Scope list_scope.

(** The numbers of the settings are ints, as the fields of the server are. *)
Definition int_settings (m : settings) : Prop := is_i32 (t_size m) /\ is_i32 (t_hint m) /\ is_i32 (t_virtual m).
Definition int_options (o : options) : Prop := is_i32 (o_size o) /\ is_i32 (o_hint o) /\ is_i32 (o_virtual o).
Definition hears (m : settings) : heard := mkHeard (t_size m) (t_hash m) (Some (t_type m)) (t_hint m) (t_virtual m).

(** The five settings in ZooKeeper, by name. *)
Definition setting_names : list bytes :=
  [s2b "partition-size"; s2b "key-hash-algorithm"; s2b "partition-type"; s2b "partition-modular-hint"; s2b "partition-modular-virtual"].
(** An index server has read all of them, with these values; other children may be there as well. *)
Definition reads_all (vals : bytes -> bytes) (children : list (bytes * option bytes)) : Prop :=
  NoDup (map fst children) /\ (forall k, In k setting_names -> In (k, Some (vals k)) children).

(** A node has started on the answers of an index server with settings [m], whose map was that of [s]. *)
Definition started_on (near : bytes -> bool) (m : settings) (s : index) (d : started) : Prop :=
  start_node near (add_answer 0 s ++ meta_answer m) = Ok d.
(** The partition a node takes for the home of a key, when there are [n] of them; [None]: undefined. *)
Definition home (ext : hash_algorithm -> bytes -> Z) (d : started) (n : nat) (k : bytes) : option nat :=
  resolve (d_conf d) (key_hash ext (d_hash d) k) n.
(** The partition the settings say; a hash is meant by its name. *)
Definition meant (h : hashing) : hash_algorithm :=
  match h with
  | hash_simple => ha_simple | hash_bitshift => ha_bitshift | hash_crc32 => ha_crc32
  | hash_adler32 => ha_adler32 | hash_murmur => ha_murmur | hash_jenkins => ha_jenkins
  end.
Definition home_by (ext : hash_algorithm -> bytes -> Z) (m : settings) (n : nat) (k : bytes) : option nat :=
  resolve (mkConfig (Z.to_nat (t_size m)) (t_hint m) (Z.to_nat (t_virtual m))) (key_hash ext (meant (t_hash m)) k) n.

(** A node that does nothing yet for clients of its own: without a partition, or the master that went down
    and for which nobody could take over, still down. *)
Definition idle (n : node) : Prop := n_role n = Proxy \/ (n_role n = Master /\ n_state n = Down).
