(** What concurrent commands should look like: one after the other. *)
From stdpp Require Import gmap.
From Verif Require Import Base StorageModel ConcModel.
Local Open Scope N_scope.

(** ** Commands one at a time *)
(** The expired record a get or incr meets. *)
Definition stale (s : store) (now : Z) (e : entry) (b : N) : option entry :=
  match db s !! e_key e with
  | None => None
  | Some raw =>
      let '(e1, ok) := unser_header raw e in
      if ok && (blen raw - header_size =? e_size e1) && negb (has b behavior_skip_timestamp) && expired_at now (e_expire e1)
      then Some e1 else None
  end.
Definition out (o : outcome) : reply * store := (mkReply (o_ret o) (o_res o) (o_entry o) None, o_store o).
(** The commands of StorageModel; a get or incr of an expired record answers NOT_FOUND and
    asks for its removal, which is a command of its own. *)
Definition one (s : store) (o : cmd) : option (reply * store) :=
  match o with
  | KGet now e b =>
      match stale s now e b with
      | Some e1 => Some (mkReply 0 (Some result_not_found) e1 (Some e1), s)
      | None => Some (out (get s now e b))
      end
  | KSet now e b => option_map out (set s now e b)
  | KIncr now e v i b =>
      match stale s now (empty_entry (e_key e)) b with
      | Some cur => Some (mkReply 0 (Some result_not_found) e (Some cur), s)
      | None => option_map out (incr s now e v i b)
      end
  | KRemove now e b => Some (out (remove s now e b))
  | KTruncate => Some (mkReply 0 None (empty_entry []) None, truncate s)
  end.

(** ** Histories *)
Definition thread_of (ev : event) : nat := match ev with Inv t _ | Lin t _ _ | Res t _ _ => t end.
Definition is_lin (ev : event) : bool := match ev with Lin _ _ _ => true | _ => false end.
(** The effects happen one after the other, in the order of the [Lin] events. *)
Inductive replay : store -> list event -> store -> Prop :=
| replay_nil s : replay s [] s
| replay_lin s t o r s' l s'' : one s o = Some (r, s') -> replay s' l s'' -> replay s (Lin t o r :: l) s''
| replay_skip s ev l s'' : is_lin ev = false -> replay s l s'' -> replay s (ev :: l) s''.
(** Each command of a thread takes effect once, between its call and its return, with the answer
    it returns; the last one may still be running. *)
Inductive orderly (t : nat) : list event -> Prop :=
| orderly_nil : orderly t []
| orderly_inv o : orderly t [Inv t o]
| orderly_lin o r : orderly t [Inv t o; Lin t o r]
| orderly_res o r l : orderly t l -> orderly t (Inv t o :: Lin t o r :: Res t o r :: l).
Definition calls (tr : list event) : list event := List.filter (fun ev => negb (is_lin ev)) tr.
Definition of_thread (t : nat) (tr : list event) : list event := List.filter (fun ev => Nat.eqb (thread_of ev) t) tr.

(** The record and the remembered delete of a key. *)
Definition view (s : store) (k : key) : option bytes * option (Z * N) := (db s !! k, hc_get (hcache s) k).
(** The calls and returns [tr] are those of commands executed one after the other, each between its
    call and its return, which lead from [s] to [g]. *)
Definition linearizable (s : store) (tr : list event) (g : store) : Prop :=
  exists tr', calls tr' = tr /\ (forall t, orderly t (of_thread t tr')) /\ replay s tr' g.

(** The threads at the beginning. *)
Definition start (s : store) (work : list (list cmd)) : conf := mkConf s (map (mkThread Idle) work).
(** Nobody is within a command. *)
Definition quiet (c : conf) : Prop := Forall (fun th => ph th = Idle) (c_threads c).
(** The header cache has room for a remembered delete of every key in use. *)
Definition roomy (s : store) (work : list (list cmd)) : Prop :=
  exists keys, (length keys <= N.to_nat (hcache_size s))%nat /\ List.NoDup (map fst (hcache s)) /\
    (forall k, In k (map fst (hcache s)) -> In k keys) /\
    (forall l o, In l work -> In o l -> is_truncate o = false -> In (cmd_key o) keys).

(** All requests have been answered. *)
Definition finished (c : conf) : Prop := Forall (fun th => ph th = Idle /\ todo th = []) (c_threads c).
(** A thread ran into undefined behaviour of the command it executes. *)
Definition undefined (c : conf) : Prop := exists th o, In th (c_threads c) /\ ph th = Body o Bad.

(** ** Counting *)
Definition amount (o : cmd) : N := match o with KIncr _ _ v _ _ => v | _ => 0 end.
(** What the increments of [k] among the requests add up to, and their number. *)
Definition added (k : key) (l : list cmd) : N :=
  fold_right (fun o n => match o with KIncr _ e v _ _ => if beq (e_key e) k then v + n else n | _ => n end) 0 l.
Definition increments (k : key) (l : list cmd) : N :=
  fold_right (fun o n => match o with KIncr _ e _ _ _ => if beq (e_key e) k then 1 + n else n | _ => n end) 0 l.
(** The requests use [k] as a counter: increments and reads only; other keys may be used in any
    way, but nobody empties the database. *)
Definition counter_only (k : key) (o : cmd) : Prop :=
  match o with
  | KIncr _ e v increment _ => e_key e = k -> increment = true /\ v < 2 ^ 64
  | KGet _ _ _ => True
  | KSet _ e _ | KRemove _ e _ => e_key e <> k
  | KTruncate => False
  end.

(** ** Requests as wholes *)
(** [l] is an interleaving of the requests of two clients. *)
Inductive merge {A} : list A -> list A -> list A -> Prop :=
| merge_nil : merge [] [] []
| merge_l x a b l : merge a b l -> merge (x :: a) b (x :: l)
| merge_r x a b l : merge a b l -> merge a (x :: b) (x :: l).
