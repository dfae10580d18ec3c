(** What C42 says, in nanoseconds. *)
From Coq Require Import List Bool NArith ZArith.
From Verif Require Import WatchModel.
Import ListNotations.
Local Open Scope Z_scope.

(** The time a timespec stands for, in nanoseconds, and the usual form. *)
Definition ns (t : timespec) : Z := ts_sec t * 1000000000 + ts_nsec t.
Definition normal (t : timespec) : Prop := 0 <= ts_nsec t < 1000000000.
(** Clock readings: seconds that a signed 62 bit number holds. *)
Definition reading (t : timespec) : Prop := normal t /\ - 2 ^ 62 <= ts_sec t < 2 ^ 62.
Definition msec (n : N) : Z := Z.of_N n * 1000000.

(** The accesses under way: the thread, when it began, and the warning threshold then in
    force; and the thresholds now. *)
Record view := mkView { under_way : list (N * (Z * Z)); v_warn : Z; v_ng : Z }.
Definition busy (v : view) (a : N) : Prop := In a (map fst (under_way v)).
Definition after (v : view) (e : event) : view :=
  match e with
  | Begin a now => mkView ((a, (ns now, v_warn v)) :: under_way v) (v_warn v) (v_ng v)
  | End a => mkView (filter (fun p => negb (N.eqb (fst p) a)) (under_way v)) (v_warn v) (v_ng v)
  | Poll _ => v
  | Thresholds warn ng => mkView (under_way v) (msec warn) (msec ng)
  end.
Definition view0 (warn ng : N) : view := mkView [] (msec warn) (msec ng).
Definition view_of (warn ng : N) (es : list event) : view := fold_left after es (view0 warn ng).

(** A thread ends what it began and does one access at a time; thresholds are 32 bit
    numbers. *)
Definition fair (v : view) (e : event) : Prop :=
  match e with
  | Begin a now => ~ busy v a /\ reading now /\ (a < 2 ^ 64)%N
  | End a => busy v a
  | Poll clk => forall a, reading (clk a)
  | Thresholds warn ng => (warn < 2 ^ 32)%N /\ (ng < 2 ^ 32)%N
  end.
Fixpoint fairs (v : view) (es : list event) : Prop :=
  match es with [] => True | e :: es' => fair v e /\ fairs (after v e) es' end.

(** What a poll has to report: every access older than its threshold, its age, and
    whether it counts as a failure of the storage. *)
Definition seen (r : report) : N * Z * bool :=
  match r with Warned a d => (a, ns d, false) | Failed a d => (a, ns d, true) end.
Definition due (v : view) (clk : N -> timespec) : list (N * Z * bool) :=
  flat_map (fun p => let '(a, (t, warn)) := p in let age := ns (clk a) - t in
                     if warn <? age then [(a, age, v_ng v <? age)] else []) (under_way v).
(** No poll so far saw a failure. *)
Definition no_failure (warn ng : N) (es : list event) : Prop :=
  forall es1 clk es2 a age, es = es1 ++ Poll clk :: es2 -> ~ In (a, age, true) (due (view_of warn ng es1) clk).
