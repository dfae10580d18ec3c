(** Model of a node whose database cannot read a record: tchdbget and tchdbget3 give the same for a record that is not there and for
    one that cannot be read, and src/lib/storage_tch.cc does not ask which (461-465, 689-695, 328-333).

    Each of [get], [set], [incr] and [remove] reads the record of its key once before it decides what to do; with a
    read that fails it does what it does without the record, and the record stays where it is unless another one is written over it.
    Everything else works ([fine] of [FailModel]). *)
From stdpp Require Import gmap.
From Coq Require Import String.
From Verif Require Import Base StorageModel TextModel SessionModel ServerModel FailModel.
Local Open Scope N_scope.

(** What is seen of the database. *)
Definition blind (s : store) (k : bytes) : store := set_db s (delete k (db s)).
(** The database after it: the record of [k] that was written, or else the one that was there. *)
Definition kept (s : store) (k : bytes) (s' : store) : store :=
  match db s' !! k, db s !! k with
  | None, Some raw => set_db s' (<[k := raw]> (db s'))
  | _, _ => s'
  end.
(** The key of a request for one key. *)
Definition only_key (r : request) : option bytes :=
  match r with
  | RStore _ e | RDelete e | RTouch _ e | RIncr _ e _ => Some (e_key e)
  | RGet _ [k] => Some k
  | _ => None
  end.
Definition serve_blind (now : Z) (n : node) (r : request) : res (reply * node) :=
  match only_key r with
  | None => Err
  | Some k =>
      let* (p, n') := serve fine now (mkNode (blind (n_store n) k) (n_healthy n)) r in
      let s' := kept (n_store n) k (p_store p) in
      Ok (mkReply s' (p_answer p) (p_forward p), mkNode s' (n_healthy n'))
  end.

(** A get or gets for several keys, each with whether its record can be read (op_get.cc:97-157, storage_tch.cc:444-506). *)
Definition get_unread (now : Z) (s : store) (k : bytes) : outcome * bool :=
  let '(o, err) := get_f (writes fine) (blind s k) now (empty_entry k) 0 in
  (mkOut (kept s k (o_store o)) (o_ret o) (o_res o) (o_entry o), err).
Fixpoint run_get_blind (now : Z) (s : store) (t : response_type) (keys : list (bytes * bool)) : store * bytes * bool :=
  match keys with
  | [] => (s, s2b "END" ++ crlf, false)
  | (k, readable) :: keys' =>
      let '(o, err) := if readable then get_f (writes fine) s now (empty_entry k) 0 else get_unread now s k in
      let '(s', out, err') := run_get_blind now (o_store o) t keys' in
      (s', match o_res o with Some result_none => print_response t (o_entry o) | _ => [] end ++ out, err || err')
  end.
Definition serve_gets (now : Z) (n : node) (ident : bytes) (keys : list (bytes * bool)) : res (reply * node) :=
  let '(s', out, err) := run_get_blind now (n_store n) (if beq ident (s2b "gets") then response_gets else response_get) keys in
  told n (Ok (mkReply s' out None)) err.
