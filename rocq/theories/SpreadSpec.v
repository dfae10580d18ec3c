(** What the nodes are to learn of the map. *)
From Coq Require Import List Bool NArith ZArith.
From Verif Require Import MonitorModel SpreadModel.
Import ListNotations.
Local Open Scope N_scope.

(** All that was to be told has been told, or was lost. *)
Definition quiet (s : st) : Prop := (forall j, over (job_of s j) = true) /\ forall n, queue_of s n = [].
Definition is_change (e : event) : bool := match e with Change _ _ _ _ _ => true | _ => false end.
Definition joins (n : N) (e : event) : bool := match e with Join m _ => m =? n | _ => false end.
Definition is_restart (e : event) : bool := match e with Restart _ => true | _ => false end.
(** Nothing fails that has to do with node [n]: there is room in the queue of its thread, and all transfers and pings
    reach it and are answered. *)
Definition works (n : N) (s : st) (e : event) : bool :=
  match e with
  | PushPrior j room => room || match job_of s j with Priors _ (m :: _) _ => negb (m =? n) | _ => false end
  | Push j room => room || match job_of s j with Rest _ (m :: _) _ => negb (m =? n) | _ => false end
  | Deliver m ok | Ping m ok => ok || negb (m =? n)
  | Join m o => o || negb (m =? n)
  | Restart up => member n up
  | _ => true
  end.
Fixpoint all_works (serial : bool) (n : N) (s : st) (es : list event) : Prop :=
  match es with
  | [] => True
  | e :: es' => works n s e = true /\ match step serial s e with Some s' => all_works serial n s' es' | None => True end
  end.
