(** Model of the bandwidth limit of dumps: src/lib/bwlimitter.cc, src/lib/bwlimitter.h. *)
From Coq Require Import List Bool NArith ZArith.
Import ListNotations.
Local Open Scope Z_scope.

(** [timeval]: seconds and microseconds. *)
Record timeval := mkTv { tv_sec : Z; tv_usec : Z }.
(** bwlimitter.h:37-39; [bw] is unsigned, [total] signed, both 64 bit. *)
Record limiter := mkLim { bw : N; total : Z; prior : timeval }.
(** bwlimitter.cc:35-40, bwlimitter.h:46 [set_bwlimit] on a new object. *)
Definition limiter0 (limit : N) : limiter := mkLim limit 0 (mkTv 0 0).

(** Signed overflow is undefined: [None].  Conversions wrap. *)
Definition long (z : Z) : option Z := if (- 2 ^ 63 <=? z) && (z <? 2 ^ 63) then Some z else None.
Definition to_long (z : Z) : Z := (z + 2 ^ 63) mod 2 ^ 64 - 2 ^ 63.
Definition bind {A B} (x : option A) (f : A -> option B) : option B := match x with Some a => f a | None => None end.
Notation "'do' x <- e ; f" := (bind e (fun x => f)) (at level 200, x name, e at level 100, f at level 200).

(** bwlimitter.cc:54 [one_sec] and the divisor [one_sec/1024] of 63, 69 and 80. *)
Definition one_sec : Z := 1000000.
Definition unit_usec : Z := one_sec / 1024.
(** bwlimitter.cc:61-62 and 78-79 *)
Definition elapsed (a b : timeval) : option Z :=
  do s <- long (tv_sec a - tv_sec b);
  do us <- long (s * one_sec);
  do u <- long (tv_usec a - tv_usec b);
  long (us + u).
(** bwlimitter.cc:63 and 80: [e * (long)_bwlimit / (one_sec/1024)]; division truncates. *)
Definition worth (limit : N) (e : Z) : option Z :=
  do p <- long (e * to_long (Z.of_N limit)); long (Z.quot p unit_usec).

(** bwlimitter.cc:47-83 [sleep_for_bwlimit].  [start] and [woke] are what gettimeofday
    reads at 58 and at 77; the result is the new state, the argument of usleep (75, an
    unsigned 32 bit number) if it is called, and the value returned. *)
Definition sleep_for (l : limiter) (bytes : N) (start woke : timeval) : option (limiter * option Z * Z) :=
  if (bw l =? 0)%N || (bytes =? 0)%N then Some (l, None, 0) else
  let t1 := to_long (total l + Z.of_N bytes) in
  do t2 <- (if tv_sec (prior l) =? 0 then Some t1 else
            do e <- elapsed start (prior l);
            do w <- worth (bw l) e;
            do t <- long (t1 - w);
            Some (if t <? 0 then 0 else t));
  do m <- long (t2 * unit_usec);
  let sleep := to_long (m mod 2 ^ 64 / Z.of_N (bw l)) in
  if sleep <? one_sec / 10 then Some (mkLim (bw l) t2 start, None, 0) else
  do e <- elapsed woke start;
  do d <- long (sleep - e);
  do t3 <- worth (bw l) d;
  Some (mkLim (bw l) t3 woke, Some (sleep mod 2 ^ 32), e).

(** A sequence of calls: bytes, [start] and [woke] of each.  The second component are the
    arguments of usleep. *)
Definition call : Type := N * timeval * timeval.
Fixpoint calls (l : limiter) (cs : list call) : option (limiter * list (option Z)) :=
  match cs with
  | [] => Some (l, [])
  | (b, s, w) :: cs' =>
      match sleep_for l b s w with
      | None => None
      | Some (l', u, _) => match calls l' cs' with Some (l'', us) => Some (l'', u :: us) | None => None end
      end
  end.
