(** What C37 says. *)
From Coq Require Import List Bool NArith ZArith.
From Verif Require Import PoolModel.
Import ListNotations.
Local Open Scope N_scope.

Definition reachable (limits : which -> N) (s : st) : Prop := exists es, steps (st0 limits) es = Some s.
(** The threads that run, with their ids. *)
Definition runs (s : st) (w : which) (t id : N) : Prop := exists ty, In (ty, id, t) (actives (pools s w)).
(** How often the counter was read. *)
Definition draws (es : list event) : N := N.of_nat (length (filter (fun e => match e with Draw _ => true | _ => false end) es)).
(** Every place a thread object is at. *)
Definition everywhere (s : st) : list N :=
  (threads (pools s Req) ++ stack (pools s Req) ++ match registering (pools s Req) with Some (_, t) => [t] | None => [] end) ++
  (threads (pools s Other) ++ stack (pools s Other) ++ match registering (pools s Other) with Some (_, t) => [t] | None => [] end) ++
  map snd (got s) ++ map snd (cleaning s).
(** The largest limit a pool had. *)
Fixpoint highest (w : which) (n : N) (es : list event) : N :=
  match es with
  | [] => n
  | Limit v m :: es' => if which_eqb v w then N.max n (highest w m es') else highest w n es'
  | _ :: es' => highest w n es'
  end.
