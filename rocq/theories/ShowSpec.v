(** What C80 says. *)
From Coq Require Import NArith ZArith List Bool String.
From Verif Require Import Base StatsSpec PoolModel PoolSpec ShowModel.
Import ListNotations.
Local Open Scope string_scope.
Local Open Scope N_scope.
Local Open Scope list_scope.

(** The eight things shown of a thread, by name, and their values. *)
Inductive trait := TType | TPeer | TOp | TUptime | TState | TInfo | TQueue | TBehind.
Definition trait_name (id : N) (f : trait) : bytes :=
  dec id ++ s2b match f with TType => ":type" | TPeer => ":peer" | TOp => ":op" | TUptime => ":uptime" | TState => ":state" | TInfo => ":info" | TQueue => ":queue" | TBehind => ":behind" end.
Definition trait_value (now : Z) (ty : Z) (x : shown) (f : trait) : bytes :=
  match f with
  | TType => decZ ty
  | TPeer => t_peer x ++ s2b ":" ++ decZ (t_port x)
  | TOp => t_op x
  | TUptime => decZ (now - t_since x)
  | TState => t_state x
  | TInfo => t_info x
  | TQueue => dec (t_queue x)
  | TBehind => decZ (if t_queue x =? 0 then 0%Z else (now - t_front x)%Z)
  end.
(** A text on one line, of moderate length. *)
Definition one_line (v : bytes) : Prop := Forall (fun c => c <> 10 /\ c <> 0) v /\ blen v < 8000.
(** A thread whose texts are such and whose numbers are in range at [now]. *)
Definition presentable (now : Z) (x : shown) : Prop :=
  one_line (t_peer x) /\ is_i32 (t_port x) /\ one_line (t_op x) /\ one_line (t_state x) /\ one_line (t_info x) /\ t_queue x < 2 ^ 32 /\
  is_i64 (now - t_since x) /\ is_i32 (now - t_front x).

(** The entry [e] was there, in the pool asked and with the type asked, when one of the lists was taken. *)
Definition was_there (limits : which -> N) (gaps : list (list event)) (qs : list (option Z * which)) (e : Z * N * N) : Prop :=
  exists i ty w s, nth_error qs i = Some (ty, w) /\ steps (st0 limits) (List.concat (firstn (S i) gaps)) = Some s /\
    In e (actives (pools s w)) /\ match ty with Some ty => fst (fst e) = ty | None => True end.

(** Two threads inside the lock of which at least one changes the map: a data race. *)
Definition race (s : looked) : Prop :=
  exists a b, a <> b /\ In a (inside s) /\ In b (inside s) /\ snd a <> None.
(** The types asked for by list. *)
Definition asks (es : list touch) : list Z := flat_map (fun e => match e with AskList _ ty => [ty] | _ => [] end) es.

(** How a client asks. *)
Definition threads_wire (k : threads_asked) : bytes :=
  s2b "stats threads" ++ s2b match k with AllThreads => "" | RequestThreads => " request" | SlaveThreads _ => " slave" end ++ [13; 10].
(** No list is taken twice. *)
Definition sensible (k : threads_asked) : Prop := match k with SlaveThreads tys => List.NoDup tys | _ => True end.
(** The order of a list. *)
Definition in_turn (a b : Z * N * N) : Prop := (fst (fst a) < fst (fst b))%Z \/ fst (fst a) = fst (fst b) /\ snd (fst a) < snd (fst b).
