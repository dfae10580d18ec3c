(** What C38 says: failures are counted, a node is declared down at the threshold. *)
From Coq Require Import List Bool ZArith.
From Verif Require Import MonitorModel.
Import ListNotations.
Local Open Scope Z_scope.

(** A failure: of a ping, or of handing over the map; entries of unknown kind count too.
    A success is a successful ping. *)
Definition fails (w : work) : bool :=
  match w with Ping ok => negb ok | NodeSync _ ok => negb ok | Options _ => false | Unknown => true end.
Definition succeeds (w : work) : bool := match w with Ping ok => ok | _ => false end.
(** No change of the threshold. *)
Definition plain (w : work) : bool := match w with Options _ => false | _ => true end.

(** The failures at the end of a history, newest outcome first, back to the last success. *)
Fixpoint run_of_failures (newest_first : list work) : Z :=
  match newest_first with
  | [] => 0
  | w :: ws => if succeeds w then 0 else (if fails w then 1 else 0) + run_of_failures ws
  end.

(** The whole behaviour: how many failures since the last success, and whether the node
    was declared down. *)
Inductive belief := Alive (n : Z) | Dead.
Definition expected (t : Z) (b : belief) (w : work) : belief * list request :=
  match b with
  | Dead => if succeeds w then (Alive 0, [RequestUp]) else (Dead, [])
  | Alive n =>
      if succeeds w then (Alive 0, [])
      else if fails w then (if n + 1 =? t then (Dead, [RequestDown]) else (Alive (n + 1), []))
      else (Alive n, [])
  end.
Fixpoint expecteds (t : Z) (b : belief) (ws : list work) : list (list request) :=
  match ws with [] => [] | w :: ws' => let (b', q) := expected t b w in q :: expecteds t b' ws' end.
