(** What is said about the replication from one cluster to another. *)
From Coq Require Import String.
From stdpp Require Import gmap.
From Verif Require Import Base StorageModel StorageSpec TextModel TextSpec SessionModel ServerModel KeyResolverModel DumpModel DumpSpec MemcachedSpec GatewaySpec ReplicaModel ReplicaSpec ReplicationModel.
Local Open Scope N_scope.

(** A request put to a node in the mode forward that sends to [dest x]: not incr, decr or flush_all; one that wants no
    answer is put to a node whose destination owns the key. *)
Definition forwardable (owner : bytes -> bytes) (dest : bytes -> bytes) (t : GatewaySpec.turn) : Prop :=
  clock (t_asked t) /\ legal_call (t_call t) /\ (forall nr, t_call t <> Flush nr) /\ (forall up k v nr, t_call t <> Count up k v nr) /\
  (replied (t_call t) \/ forall k, subject (t_call t) k -> dest (t_node t) = owner k).
Definition asking_of (t : GatewaySpec.turn) : asking := mkAsking (t_node t) (t_pick t) (t_asked t) (GatewaySpec.t_now t) (wire (t_call t)).

(** ** Mode duplicate *)
(** An execution of a master and the node it duplicates to (ReplicaModel), in which every delivery has a trail of its
    own: that of the request the write came with. *)
Inductive duplicated : Z -> pair -> list (list bytes * event) -> Z -> pair -> Prop :=
| dup_nil T st : duplicated T st [] T st
| dup_snoc T st l T1 st1 trail ev st2 out :
    duplicated T st l T1 st1 -> Forall legal_node_name trail ->
    (T1 <= event_time ev)%Z -> (event_time ev < 2 ^ 62)%Z -> admissible st1 ev ->
    step trail st1 ev = Ok (st2, out) ->
    duplicated T st (l ++ [(trail, ev)]) (event_time ev) st2.

(** ** The dump *)
(** set <key> <flag> <expire> <size> [<version>] CRLF <data> CRLF *)
Definition set_block (x : key * rec) : bytes :=
  let '(k, r) := x in
  s2b "set " ++ k ++ s2b " " ++ dec (r_flag r) ++ s2b " " ++ decZ (r_expire r) ++ s2b " " ++ dec (blen (r_data r))
  ++ (if r_version r =? 0 then [] else s2b " " ++ dec (r_version r)) ++ crlf ++ r_data r ++ crlf.
(** What a dump has to send: for each key of the partition the record the key has when it is visited.  Every key
    visited is still there. *)
Inductive owed (cfg : config) (ext : hash_algorithm -> bytes -> Z) (alg : hash_algorithm) (part : Z) : list visit -> list (key * rec) -> Prop :=
| owed_nil : owed cfg ext alg part [] []
| owed_skip v l sent : (0 <= part)%Z -> ~ asked cfg ext alg part (v_size v) (v_key v) -> owed cfg ext alg part l sent -> owed cfg ext alg part (v :: l) sent
| owed_send v l sent r : asked cfg ext alg part (v_size v) (v_key v) -> live (v_store v) (v_now v) (v_key v) r ->
    owed cfg ext alg part l sent -> owed cfg ext alg part (v :: l) ((v_key v, r) :: sent).
Definition smooth (v : visit) : Prop := v_stop v = false /\ v_answered v = true.

(** ** The dump while clients write *)
Definition incident_time (h : incident) : Z :=
  match h with Client now _ | Visit now _ | Land now | Attempt now _ | Deliver now _ => now end.
(** The request may not be delete, touch or gat of [k], or flush_all. *)
Definition spares (k : key) (r : request) : Prop :=
  match r with
  | RDelete e | RTouch _ e => e_key e <> k
  | RFlush _ => False
  | _ => True
  end.
(** What an execution is assumed to respect for the key [k]: the record of [k] in the source does not
    expire; clients do not delete or touch it or use flush_all; the iterator returns
    keys of text clients, and [k] only if it is there. *)
Definition allowed (k : key) (st : transfer) (h : incident) : Prop :=
  (forall r, holds (source_store st) k (Some r) -> wf_rec r -> ~ expired (incident_time h) r) /\
  match h with
  | Client now stream => wf_bytes stream /\
      forall c r rest, serve_next now stream = Ok (Accepted c r, rest) -> Forall legal_node_name (c_trail c) /\ spares k r
  | Visit now k' => legal_key k' /\ (k' = k -> exists r, live (source_store st) now k r)
  | Land _ | Attempt _ _ | Deliver _ _ => True
  end.
(** The 64-bit version counter of [k] has not wrapped around to 0. *)
Definition unwrapped (k : key) (s : store) : Prop := forall r, holds s k (Some r) -> wf_rec r -> r_version r <> 0.
(** An execution from [st] at time [T]: clocks do not run backwards. *)
Inductive transferred (k : key) : Z -> transfer -> list incident -> Z -> transfer -> Prop :=
| tr_nil T st : transferred k T st [] T st
| tr_snoc T st l T1 st1 h st2 out :
    transferred k T st l T1 st1 ->
    (T1 <= incident_time h < 2 ^ 62)%Z -> allowed k st1 h ->
    transfer_step st1 h = Ok (st2, out) -> unwrapped k (source_store st2) ->
    transferred k T st (l ++ [h]) (incident_time h) st2.
(** Start: nothing is on the way; the destination has no record of [k], or an older one, or that of the source. *)
Record prepared (k : key) (T : Z) (st : transfer) : Prop := {
  pr_time : (2592000 <= T < 2 ^ 62)%Z;
  pr_source : wf_store (source_store st);
  pr_dest : wf_store (dest_store st);
  pr_expire : forall k' r, holds (source_store st) k' (Some r) -> wf_rec r -> absolute_expire (r_expire r);
  pr_unwrapped : unwrapped k (source_store st);
  pr_older : forall r, holds (dest_store st) k (Some r) -> wf_rec r ->
    exists r', holds (source_store st) k (Some r') /\ wf_rec r' /\ (r = r' \/ r_version r < r_version r');
  pr_way : on_way st = [];
  pr_entry : dump_entry st = empty_entry [];
  pr_request : dump_request st = None;
}.
