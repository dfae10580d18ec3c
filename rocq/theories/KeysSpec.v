(** The keys that begin with a prefix. *)
From Coq Require Import String Sorted.
From stdpp Require Import gmap.
From Verif Require Import Base StorageModel TextModel.
Local Open Scope N_scope.
Local Open Scope list_scope.

(** The order of the bytes, a shorter key before its extensions. *)
Inductive before : bytes -> bytes -> Prop :=
| before_end b k : before [] (b :: k)
| before_less a b k k' : a < b -> before (a :: k) (b :: k')
| before_same a k k' : before k k' -> before (a :: k) (a :: k').
Definition begins (p k : bytes) : Prop := exists r, k = p ++ r.

(** [l] are the [n] least of the keys in [ks] that begin with [p], or all of them, in order, each once. *)
Record listing (ks : bytes -> Prop) (p : bytes) (n : Z) (l : list bytes) : Prop := {
  l_sorted : StronglySorted before l;
  l_sound : forall k, In k l -> ks k /\ begins p k;
  l_limit : (Z.of_nat (List.length l) <= n)%Z;
  l_complete : forall k, ks k -> begins p k -> In k l \/ Z.of_nat (List.length l) = n /\ forall k', In k' l -> before k' k
}.
(** The keys that a node has an entry for. *)
Definition held (s : store) (k : bytes) : Prop := exists v, db s !! k = Some v.
(** The answer that shows the lists [ls]. *)
Definition shows_keys (ls : list (list bytes)) : bytes :=
  flat_map (fun k => s2b "KEY " ++ k ++ [13; 10]) (List.concat ls) ++ s2b "END" ++ [13; 10].
