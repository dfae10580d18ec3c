(** Model of the window of unanswered replication requests: src/lib/handler_proxy.cc:139-174
    ([_process_queue]) with the parts of [run_client] that look at the option noreply
    (src/lib/op_set.cc:181-234, op_delete.cc:142-188, op_incr.cc:206-243, op_touch.cc:98-120)
    and the copies a master sends to its slaves (src/lib/cluster.cc:1463-1474).

    The workers of all slaves get the same object (cluster.cc:1463, 1470), so its option is
    shared.  A step is one access to it.  Connections work and the slaves answer the requests
    in the order they arrive (C18, C49 are about the rest). *)
From Coq Require Import List Bool Arith ZArith.
Import ListNotations.

(** A worker: between entries, about to set noreply in entry [i] (handler_proxy.cc:151-154),
    about to write its request, or about to read the answer; [said]: the request said noreply. *)
Inductive place := Idle | Marks (i : nat) | Judged (i : nat) | Wrote (i : nat) (said : bool).

(** [bit i]: entry [i] has the option noreply.  [sent d]: handler_proxy.h _noreply_count of
    worker [d].  [way d]: answers on their way to it.  [asked d]: the requests it has written,
    with whether they say noreply; [reads d]: the entries it is through with, and the entry
    whose answer it read for them. *)
Record st := mkSt { bit : nat -> bool; queue : nat -> list nat; at_ : nat -> place; sent : nat -> Z;
                    way : nat -> list nat; asked : nat -> list (nat * bool); reads : nat -> list (nat * option nat) }.
(** No client asked for noreply. *)
Definition st0 : st := mkSt (fun _ => false) (fun _ => []) (fun _ => Idle) (fun _ => 0%Z) (fun _ => []) (fun _ => []) (fun _ => []).
Definition upd {A} (f : nat -> A) (d : nat) (v : A) : nat -> A := fun x => if Nat.eqb x d then v else f x.

Inductive event :=
| Enq (d i : nat)   (* thread.cc:441-453: entry [i] is put into the queue of worker [d] *)
| Judge (d : nat)   (* handler_proxy.cc:143-150, 157-158 *)
| Mark (d : nat)    (* handler_proxy.cc:152-154 *)
| Write (d : nat)   (* op_set.cc:181-212 *)
| Read (d : nat).   (* op_set.cc:214-234 *)

(** Next state; [None]: not possible now (or, for [Read], no answer comes). *)
Definition step (limit : Z) (s : st) (e : event) : option st :=
  match e with
  | Enq d i => Some (mkSt (bit s) (upd (queue s) d (queue s d ++ [i])) (at_ s) (sent s) (way s) (asked s) (reads s))
  | Judge d =>
      match at_ s d, queue s d with
      | Idle, i :: q =>
          Some (if bit s i || (limit <=? 0)%Z then mkSt (bit s) (upd (queue s) d q) (upd (at_ s) d (Judged i)) (sent s) (way s) (asked s) (reads s)
                else if (sent s d <? limit)%Z then mkSt (bit s) (upd (queue s) d q) (upd (at_ s) d (Marks i)) (upd (sent s) d (sent s d + 1)%Z) (way s) (asked s) (reads s)
                else mkSt (bit s) (upd (queue s) d q) (upd (at_ s) d (Judged i)) (upd (sent s) d 0%Z) (way s) (asked s) (reads s))
      | _, _ => None
      end
  | Mark d =>
      match at_ s d with
      | Marks i => Some (mkSt (upd (bit s) i true) (queue s) (upd (at_ s) d (Judged i)) (sent s) (way s) (asked s) (reads s))
      | _ => None
      end
  | Write d =>
      match at_ s d with
      | Judged i =>
          Some (mkSt (bit s) (queue s) (upd (at_ s) d (Wrote i (bit s i))) (sent s)
                  (if bit s i then way s else upd (way s) d (way s d ++ [i])) (upd (asked s) d (asked s d ++ [(i, bit s i)])) (reads s))
      | _ => None
      end
  | Read d =>
      match at_ s d with
      | Wrote i _ =>
          if bit s i then Some (mkSt (bit s) (queue s) (upd (at_ s) d Idle) (sent s) (way s) (asked s) (upd (reads s) d (reads s d ++ [(i, None)])))
          else match way s d with
               | j :: w => Some (mkSt (bit s) (queue s) (upd (at_ s) d Idle) (sent s) (upd (way s) d w) (asked s) (upd (reads s) d (reads s d ++ [(i, Some j)])))
               | [] => None
               end
      | _ => None
      end
  end.
Fixpoint steps (limit : Z) (s : st) (es : list event) : option st :=
  match es with [] => Some s | e :: es' => match step limit s e with Some s' => steps limit s' es' | None => None end end.
