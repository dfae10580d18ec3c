(** Vocabulary of the properties of forwarded requests. *)
From Coq Require Import List Bool Arith.
From Verif Require Import ProxyModel.
Import ListNotations.

(** Nothing is on its way but requests that will not be answered. *)
Definition calm {St Q A} (silent : Q -> bool) (l : link St Q A) : Prop := back l = [] /\ Forall (fun q => silent q = true) (inbox l).
(** Whatever the node does with [q], it answers with something that fits. *)
Definition fits {St Q A} (exec : St -> Q -> St * A) (accepts : Q -> A -> bool) (q : Q) : Prop := forall s, accepts q (snd (exec s q)) = true.
(** An attempt after which the sender does not have to guess: the request was not
    sent, or it was answered in time. *)
Definition sure {St Q A} (l : link St Q A) (f : fate) : Prop :=
  match f with Refused _ => True | Wait n => List.length (inbox l) < n | _ => False end.
(** No answer is late: the attempt fails by an error of the connection, or the answer
    arrives in time. *)
Definition timely {St Q A} (l : link St Q A) (f : fate) : Prop :=
  match f with Refused _ | Broken _ => True | Wait n => List.length (inbox l) < n | Late _ => False end.
