(** What is said about a node that joins a partition while clients write. *)
From Coq Require Import String.
From stdpp Require Import gmap.
From Verif Require Import Base StorageModel StorageSpec TextModel TextSpec SessionModel ServerModel KeyResolverModel DumpModel DumpSpec ReplicationSpec JoinModel.
Local Open Scope N_scope.

Definition event_time (ev : event) : Z :=
  match ev with Client now _ | Visit now _ | Finish now | Land now | Attempt now _ | Deliver now _ => now end.
(** The request may not be touch or gat of [k], or flush_all. *)
Definition leaves (k : key) (r : request) : Prop :=
  match r with
  | RTouch _ e => e_key e <> k
  | RFlush _ => False
  | _ => True
  end.
(** pending[i], if it is on [k], is the oldest that is. *)
Definition oldest (k : key) (q : list (list bytes * (bytes * entry))) (i : nat) : Prop :=
  forall x, nth_error q i = Some x -> e_key (snd (snd x)) = k ->
    forall j y, (j < i)%nat -> nth_error q j = Some y -> e_key (snd (snd y)) <> k.
(** The version the node associates with [k] does not go back: neither is the tombstone of [k] dropped from the bounded
    cache, nor does a client choose a smaller version. *)
Definition steady (k : key) (s s' : store) : Prop := forall v v', knows s k v -> knows s' k v' -> v <= v'.
(** What the node knows of [k] is not dropped. *)
Definition keeps (k : key) (s s' : store) : Prop := remembered s k -> remembered s' k.

(** What an execution is assumed to respect for the key [k]: the record of [k] in the master does not expire; clients do not
    touch it or use flush_all; the iterator returns keys of text clients, whose version counters have not wrapped around; the
    writes on [k] are sent on in their order. *)
Definition sound (k : key) (st : joining) (ev : event) : Prop :=
  (forall r, holds (j_master st) k (Some r) -> wf_rec r -> ~ expired (event_time ev) r) /\
  match ev with
  | Client now stream => wf_bytes stream /\
      forall c r rest, serve_next now stream = Ok (Accepted c r, rest) -> Forall legal_node_name (c_trail c) /\ leaves k r
  | Visit now k' => legal_key k' /\ unwrapped k' (j_master st)
  | Attempt _ i | Deliver _ i => oldest k (j_pending st) i
  | Finish _ | Land _ => True
  end.

Section Join.
  Variables (cfg : config) (ext : hash_algorithm -> bytes -> Z) (alg : hash_algorithm) (part : Z) (psize : nat).
  (** An execution from [st] at time [T]: clocks do not run backwards. *)
  Inductive joined (k : key) : Z -> joining -> list event -> Z -> joining -> Prop :=
  | joined_nil T st : joined k T st [] T st
  | joined_snoc T st l T1 st1 ev st2 :
      joined k T st l T1 st1 ->
      (T1 <= event_time ev < 2 ^ 62)%Z -> sound k st1 ev ->
      join_step cfg ext alg part psize st1 ev = Ok st2 ->
      unwrapped k (j_master st2) -> steady k (j_master st1) (j_master st2) -> keeps k (j_replica st1) (j_replica st2) ->
      joined k T st (l ++ [ev]) (event_time ev) st2.
End Join.
(** Start: nothing is on the way.  The node that joins knows nothing newer of [k] than the master, and has a record of
    [k] only if the master has one. *)
Record beginning (k : key) (T : Z) (st : joining) : Prop := {
  b_time : (2592000 <= T < 2 ^ 62)%Z;
  b_master : wf_store (j_master st);
  b_replica : wf_store (j_replica st);
  b_cache : 1 <= hcache_size (j_replica st);
  b_expire : forall k' r, holds (j_master st) k' (Some r) -> wf_rec r -> absolute_expire (r_expire r);
  b_unwrapped : unwrapped k (j_master st);
  b_behind : forall v v', knows (j_replica st) k v -> knows (j_master st) k v' ->
    v < v' \/ (v = v' /\ db (j_replica st) !! k = db (j_master st) !! k);
  b_no_more : db (j_master st) !! k = None -> db (j_replica st) !! k = None;
  b_pending : j_pending st = [];
  b_entry : j_entry st = empty_entry [];
  b_wire : j_wire st = [];
  b_ended : j_ended st = false;
  b_whole : j_whole st = false;
}.
(** No write on [k] is still to be sent on. *)
Definition sent_on (k : key) (st : joining) : Prop := forall x, In x (j_pending st) -> e_key (snd (snd x)) <> k.
(** The iterator has returned [k]. *)
Definition seen_by (k : key) (l : list event) : Prop := exists now, In (Visit now k) l.
