(** What users mean by one server for a directory. *)
From Coq Require Import NArith ZArith List Bool.
From Verif Require Import Base PidModel.
Import ListNotations.
Local Open Scope N_scope.

(** no server runs or is about to write the file; whatever the file has in it, and whatever other programs run *)
Definition nobody (s : st) : Prop := forall p, at_ s p = Away \/ at_ s p = Other.
Definition one_server (s : st) : Prop := forall p q, at_ s p = Running -> at_ s q = Running -> p = q.
(** no server looks at the file while another is between its look and its entry, and what is written is written
    whole *)
Definition entering (x : stage) : Prop := match x with Checked | Opened _ => True | _ => False end.
Definition calm (s : st) (e : event) : Prop :=
  match e with
  | Check p => forall q, ~ entering (at_ s q)
  | Write _ whole => whole = true
  | _ => True
  end.
Fixpoint all_calm (groups : Z -> bool) (s : st) (es : list event) : Prop :=
  match es with
  | [] => True
  | e :: es => calm s e /\ match step groups s e with Some s' => all_calm groups s' es | None => True end
  end.
(** the file has the number [p] in it *)
Definition names (s : st) (p : N) : Prop := exists i, file s = Some (i, dec p ++ [10]).
(** blanks, and numbers as they may be written: digits with a sign or without *)
Definition blank (c : N) : Prop := In c [9; 10; 11; 12; 13; 32].
Definition numeral (d : bytes) : Prop := d <> [] /\ Forall (fun c => is_digit c = true) d.
Definition written (w : bytes) (z : Z) : Prop :=
  (exists d, numeral d /\ (w = d \/ w = 43 :: d) /\ z = Z.of_N (dec_val d))
  \/ (exists d, numeral d /\ w = 45 :: d /\ z = (- Z.of_N (dec_val d))%Z).
