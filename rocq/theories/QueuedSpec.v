(** A cluster as its clients see it, when some of them do not wait for answers: a write with noreply put to a node
    that does not own the key is queued there and takes effect when it reaches the owner. *)
From Coq Require Import NArith ZArith List Bool.
From Verif Require Import Base TextSpec StorageSpec MemcachedSpec GatewaySpec.
Import ListNotations.

(** A client puts a request to a node, or the [i]th of the queued requests reaches the owner of its key. *)
Inductive deed := Request (t : turn) | Arrival (now : Z) (i : nat).
Definition deed_time (d : deed) : Z := match d with Request t => t_now t | Arrival now _ => now end.
Fixpoint advancing (from : Z) (l : list deed) : Prop :=
  match l with [] => True | d :: l' => (from <= deed_time d < 2 ^ 62)%Z /\ advancing (deed_time d) l' end.
(** Any client may use noreply, at any node; nobody uses flush_all. *)
Definition fair (d : deed) : Prop :=
  match d with
  | Request t => legal_node_name (t_node t) /\ clock (t_asked t) /\ legal_call (t_call t) /\ forall nr, t_call t <> Flush nr
  | Arrival _ _ => True
  end.
(** Queued: nobody waits for the answer and the node asked does not own the key. *)
Definition put_off (owner : bytes -> bytes) (t : turn) : Prop :=
  ~ replied (t_call t) /\ exists k, subject (t_call t) k /\ t_node t <> owner k.

(** One memory, and the requests under way, each with the time at which it was asked. *)
Inductive talks (owner : bytes -> bytes) : memory -> list (Z * call) -> list deed -> memory -> list (Z * call) -> list bytes -> Prop :=
| talks_nil m q : talks owner m q [] m q []
| talks_now m q t m1 a l m2 q2 b : ~ put_off owner t -> does (t_asked t) (t_now t) m (t_call t) m1 a ->
    talks owner m1 q l m2 q2 b -> talks owner m q (Request t :: l) m2 q2 (a :: b)
| talks_later m q t l m2 q2 b : put_off owner t ->
    talks owner m (q ++ [(t_asked t, t_call t)]) l m2 q2 b -> talks owner m q (Request t :: l) m2 q2 ([] :: b)
| talks_arrival m q now i asked cl m1 l m2 q2 b : nth_error q i = Some (asked, cl) -> does asked now m cl m1 [] ->
    talks owner m1 (firstn i q ++ skipn (S i) q) l m2 q2 b -> talks owner m q (Arrival now i :: l) m2 q2 ([] :: b).

(** What stops the talk: a value that is too long, or the arrival of a request that is not under way. *)
Definition stops (m : memory) (q : list (Z * call)) (d : deed) : Prop :=
  match d with
  | Request t => too_long (t_now t) m (t_call t)
  | Arrival now i => match nth_error q i with None => True | Some (_, cl) => too_long now m cl end
  end.
