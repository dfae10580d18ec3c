(** Vocabulary for dumps. *)
From stdpp Require Import gmap.
From Coq Require Import String.
From Verif Require Import Base StorageModel StorageSpec TextModel TextSpec KeyResolverModel DumpModel.
Local Open Scope N_scope.

(** A record on the wire:
    VALUE <key> <flag> <size> <version> <expire> CRLF <data> CRLF *)
Definition record_block (k : key) (r : rec) : bytes :=
  s2b "VALUE " ++ k ++ s2b " " ++ dec (r_flag r) ++ s2b " " ++ dec (blen (r_data r)) ++ s2b " " ++ dec (r_version r)
  ++ s2b " " ++ decZ (r_expire r) ++ crlf ++ r_data r ++ crlf.
Definition record_blocks (l : list (key * rec)) : bytes := List.concat (map (fun x => record_block (fst x) (snd x)) l).
(** The key of a round. *)
Definition turn_key (t : turn) : key := TextModel.cstr (t_key t).
(** A record that survives the text protocol. *)
Definition portable (k : key) (r : rec) : Prop :=
  legal_key k /\ absolute_expire (r_expire r) /\ 0 < r_version r.
(** The round [t] has to send [r]. *)
Definition owes (sel : key -> option bool) (s : store) (t : turn) (r : rec) : Prop :=
  sel (turn_key t) = Some true /\ live s (t_now t) (turn_key t) r.
Definition no_stop (r : round) : Prop := r_stop1 r = false /\ r_stop2 r = false.

(** The keys a request for partition [part] of [psize] asks for; negative: all keys. *)
Definition asked (cfg : config) (ext : hash_algorithm -> bytes -> Z) (alg : hash_algorithm) (part : Z) (psize : nat) (k : key) : Prop :=
  (part < 0)%Z \/ ((0 <= part)%Z /\ resolve cfg (key_hash ext alg k) psize = Some (Z.to_nat part)).
(** The database iterator walks through the keys of [s], each once. *)
Definition walk (s : store) (order : list key) : Prop := List.NoDup order /\ forall k, In k order <-> db s !! k <> None.
(** Keys the C string functions keep. *)
Definition no_nul (k : key) : Prop := Forall (fun c => c <> 0) k.
(** Nobody asks the sending node to stop and the connection holds. *)
Definition undisturbed (t : turn) : Prop := is_i64 (t_now t) /\ t_stop t = false /\ t_sent t = None.
(** The request can be resolved. *)
Definition resolvable (cfg : config) (ext : hash_algorithm -> bytes -> Z) (alg : hash_algorithm) (part : Z) (psize : nat) (k : key) : Prop :=
  (part < 0)%Z \/ resolve cfg (key_hash ext alg k) psize <> None.
(** A dump changes the database only by dropping expired records. *)
Definition same_or_gone (s s' : store) (ts : list turn) : Prop :=
    forall k, db s' !! k = db s !! k \/ (db s' !! k = None /\ exists t r, In t ts /\ turn_key t = k /\ holds s k (Some r) /\ expired (t_now t) r).
(** The answer to dump_key. *)
Definition key_lines (l : list key) : bytes := List.concat (map (fun k => s2b "KEY " ++ k ++ crlf) l).
(** The iterator returned the keys of the rounds in turn; it reported the end only after all of them. *)
Definition walked (s : store) (ts : list turn) (last : iteration) : Prop :=
  exists order rest, walk s order /\ map t_key ts ++ rest = order /\ (last = iteration_end -> rest = []).
(** The record does not expire while it is sent. *)
Definition lasting (ts : list turn) (k : key) (r : rec) : Prop := forall t, In t ts -> t_key t = k -> ~ expired (t_now t) r.
