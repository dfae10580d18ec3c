(** What is said about a master and its replica. *)
From Coq Require Import String.
From stdpp Require Import gmap.
From Verif Require Import Base StorageModel StorageSpec TextModel TextSpec SessionModel ServerModel ReplicaModel.
Local Open Scope N_scope.

Definition event_time (ev : event) : Z :=
  match ev with Client now _ | Read now _ _ | Attempt now _ | Deliver now _ => now end.

(** From clock value [T] on clients see the same under [k] in both stores. *)
Definition agree_from (T : Z) (k : key) (s1 s2 : store) : Prop :=
  forall now o, (T <= now)%Z -> (visible s1 now k o <-> visible s2 now k o).

(** pending[i] is the oldest of the pending operations on its key. *)
Definition in_order (q : list (bytes * entry)) (i : nat) : Prop :=
  forall j f g, (j < i)%nat -> nth_error q j = Some f -> nth_error q i = Some g -> e_key (snd f) <> e_key (snd g).

(** What an execution is assumed to respect: bytes are bytes; no client asks for
    flush_all; a replica is only sent the oldest
    operation on a key; a touch reaches the replica while the record is still alive there; the
    64-bit version counter of a key has not wrapped around to 0. *)
Definition admissible (st : pair) (ev : event) : Prop :=
  match ev with
  | Client now stream => wf_bytes stream /\ forall c nr rest, serve_next now stream <> Ok (Accepted c (RFlush nr), rest)
  | Read now t keys => True
  | Attempt now i | Deliver now i =>
      in_order (pending st) i /\
      forall ident e, nth_error (pending st) i = Some (ident, e) ->
        ((ident = s2b "touch" \/ ident = s2b "gat") -> exists r, live (replica st) now (e_key e) r)
        /\ (ident <> s2b "touch" -> ident <> s2b "gat" -> ident <> s2b "delete" -> e_version e <> 0)
  end.

(** An execution from [st] at time [T]: clocks do not run backwards. *)
Inductive execution (trail : list bytes) : Z -> pair -> list event -> Z -> pair -> Prop :=
| exec_nil T st : execution trail T st [] T st
| exec_snoc T st l T1 st1 ev st2 out :
    execution trail T st l T1 st1 ->
    (T1 <= event_time ev)%Z -> (event_time ev < 2 ^ 62)%Z -> admissible st1 ev ->
    step trail st1 ev = Ok (st2, out) ->
    execution trail T st (l ++ [ev]) (event_time ev) st2.

(** Start: both stores well formed, with absolute expiry times, showing the same; nothing pending. *)
Record synchronized (T : Z) (st : pair) : Prop := {
  y_time : (2592000 <= T < 2 ^ 62)%Z;
  y_master : wf_store (master st);
  y_replica : wf_store (replica st);
  y_expire : forall k r, holds (master st) k (Some r) -> wf_rec r -> absolute_expire (r_expire r);
  y_agree : forall k, agree_from T k (master st) (replica st);
  y_pending : pending st = [];
}.
