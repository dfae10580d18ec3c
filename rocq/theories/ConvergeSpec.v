(** C11: versioned stores and deletes of one key delivered to replicas. *)
From stdpp Require Import gmap.
From Verif Require Import Base StorageModel StorageSpec StorageProofs2.
Local Open Scope N_scope.

(** What a replica receives: versioned stores and deletes of [k], as a master forwards them or a dump sends them, reads, and anything
    on other keys. *)
Definition mixed_delivery (k : key) (o : op) : Prop :=
  match o with
  | OSet _ e b => e_key e = k -> e_version e <> 0 /\ (b = 0 \/ b = behavior_dump)
  | ORemove _ e b => e_key e = k -> e_version e <> 0 /\ b = 0
  | OGet _ _ _ => True
  | OIncr _ e _ _ _ => e_key e <> k
  | OTruncate => False
  end.
(** The version of a delete of [k]. *)
Definition deletes (k : key) (o : op) (d : N) : Prop := exists now e b, o = ORemove now e b /\ e_key e = k /\ d = e_version e.
(** No forwarded store arrives after a delete of its version or of a later one (those of a dump may). *)
Definition orderly (k : key) (l : list op) : Prop :=
  forall l1 o l2 d now e, l = l1 ++ o :: l2 -> deletes k o d -> In (OSet now e 0) l2 -> e_key e = k -> d < e_version e.
(** [w] is what the newest of the operations leaves under [k]. *)
Definition decides (k : key) (l : list op) (w : option rec) : Prop :=
  match w with
  | Some r => (exists o, In o l /\ delivers k o r) /\ (forall o r', In o l -> delivers k o r' -> r' = r \/ r_version r' < r_version r)
      /\ (forall o d, In o l -> deletes k o d -> d < r_version r)
  | None => exists o d, In o l /\ deletes k o d /\ (forall o r', In o l -> delivers k o r' -> r_version r' <= d)
      /\ (forall o d', In o l -> deletes k o d' -> d' <= d)
  end.
(** Everything received is newer than what the replica had: at least as new for deletes. *)
Definition news (k : key) (v : N) (l : list op) : Prop :=
  (forall o r, In o l -> delivers k o r -> v < r_version r) /\ (forall o d, In o l -> deletes k o d -> v <= d).
(** A replica starts with [init] and version [v] for [k], and receives [l]. *)
Record receives (k : key) (init : option rec) (v : N) (s : store) (l : list op) (s' : store) : Prop := {
  rc_wf : wf_store s;
  rc_ops : Forall wf_op l /\ Forall sane_op l /\ Forall (mixed_delivery k) l;
  rc_run : run s l = Some s';
  rc_init : holds s k init /\ knows s k v;
  rc_fresh : fresh k init l;
  rc_orderly : orderly k l;
  rc_kept : dumps k l -> never_forgets k s l /\ 1 <= hcache_size s;
}.
(** Stores with the same version are of the same record. *)
Definition distinct (k : key) (l : list op) : Prop :=
  forall o o' r r', In o l -> In o' l -> delivers k o r -> delivers k o' r' -> r_version r = r_version r' -> r = r'.
