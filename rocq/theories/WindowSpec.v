(** What C72 says, in terms of schedules. *)
From Coq Require Import List Bool Arith ZArith.
From Verif Require Import WindowModel.
Import ListNotations.

(** What is read for a request is its own answer, and is read exactly if the request asked
    for one. *)
Definition own_answers (asked : list (nat * bool)) (reads : list (nat * option nat)) : Prop :=
  reads = map (fun x : nat * bool => (fst x, if snd x then None else Some (fst x))) (firstn (List.length reads) asked).
(** The entries put into the queue of worker [d]. *)
Definition entries (d : nat) (es : list event) : list nat :=
  flat_map (fun e => match e with Enq d' i => if Nat.eqb d' d then [i] else [] | _ => [] end) es.
(** Every entry goes to one worker, once: there is one slave. *)
Definition one_slave (es : list event) : Prop :=
  (exists owner : nat -> nat, forall d i, In (Enq d i) es -> owner i = d) /\ forall d, NoDup (entries d es).
(** No entry is marked while another worker is between writing its request and reading
    its answer. *)
Fixpoint apart (limit : Z) (s : st) (es : list event) : Prop :=
  match es with
  | [] => True
  | e :: es' => forall s', step limit s e = Some s' ->
      (forall d i d' b, e = Mark d -> at_ s d = Marks i -> at_ s d' <> Wrote i b) /\ apart limit s' es'
  end.
(** At most [n] requests in a row say noreply. *)
Definition runs_within (n : nat) (asked : list (nat * bool)) : Prop :=
  forall a b c, asked = a ++ b ++ c -> Forall (fun x => snd x = true) b -> List.length b <= n.
(** The window exactly: [l] requests that say noreply, one that does not, and so on. *)
Definition says_noreply (l n : nat) : bool := negb (n mod S l =? l).
Definition patterned (l : nat) (asked : list (nat * bool)) : Prop := forall n x, nth_error asked n = Some x -> snd x = says_noreply l n.
