(** Specification vocabulary for the storage engine.  It mentions the state of
    the model (database bytes, tombstones) but none of its helper functions. *)
From stdpp Require Import gmap.
From Verif Require Import Base StorageModel.
Local Open Scope N_scope.

(** A logical record: what a client believes is stored under a key. *)
Record rec := mkRec { r_flag : N; r_expire : Z; r_version : N; r_data : bytes }.

(** Field ranges of the C types, and the length limit of the database API. *)
Definition wf_rec (r : rec) : Prop :=
  r_flag r < 2 ^ 32 /\ is_i64 (r_expire r) /\ r_version r < 2 ^ 64
  /\ blen (r_data r) <= 2147483647 - 28 /\ wf_bytes (r_data r).

(** Disk format: flag (4 bytes), expiry (8), length (8), version (8), all
    little-endian, then the data. *)
Definition encode_rec (r : rec) : bytes :=
  le_enc 4 (r_flag r) ++ le_enc 8 (i64_to_u64 (r_expire r))
  ++ le_enc 8 (blen (r_data r)) ++ le_enc 8 (r_version r) ++ r_data r.

(** The database holds exactly [o] under [k]. *)
Definition holds (s : store) (k : key) (o : option rec) : Prop :=
  db s !! k = encode_rec <$> o.

(** A tombstone for [k] is remembered with this expiry and version. *)
Definition tomb (s : store) (k : key) : option (Z * N) :=
  match List.find (fun p => beq (fst p) k) (hcache s) with
  | Some p => Some (snd p)
  | None => None
  end.

(** Well-formed states: every database value is the encoding of a record, and
    the tombstone cache has no duplicate keys, is within its size limit and
    holds 64-bit values.  All reachable states satisfy this. *)
Definition wf_store (s : store) : Prop :=
  (forall k raw, db s !! k = Some raw -> exists r, wf_rec r /\ raw = encode_rec r)
  /\ List.NoDup (map fst (hcache s))
  /\ N.of_nat (length (hcache s)) <= hcache_size s
  /\ (forall k x v, tomb s k = Some (x, v) -> is_i64 x /\ v < 2 ^ 64).

(** Well-formed entry argument: C field ranges, and the data buffer is exactly
    as long as the size field says (guaranteed by the command parsers). *)
Definition wf_entry (e : entry) : Prop :=
  e_flag e < 2 ^ 32 /\ is_i64 (e_expire e) /\ e_version e < 2 ^ 64
  /\ e_size e = blen (e_data e) /\ wf_bytes (e_data e).

(** The record of an entry. *)
Definition rec_of (e : entry) : rec := mkRec (e_flag e) (e_expire e) (e_version e) (e_data e).

Definition wf_op (o : op) : Prop :=
  match o with
  | OSet now e b => wf_entry e /\ is_i64 now
  | OIncr now e v i b => wf_entry e /\ v < 2 ^ 64 /\ is_i64 now
  | OGet now e b => wf_entry e /\ is_i64 now
  | ORemove now e b => wf_entry e /\ is_i64 now
  | OTruncate => True
  end.

Definition op_key (o : op) : option key :=
  match o with
  | OSet _ e _ | OIncr _ e _ _ _ | OGet _ e _ | ORemove _ e _ => Some (e_key e)
  | OTruncate => None
  end.

(** A record is expired at clock value [now]: positive expiry, at or before. *)
Definition expired (now : Z) (r : rec) : Prop := (0 < r_expire r <= now)%Z.

(** A live record: stored and not expired at [now]. *)
Definition live (s : store) (now : Z) (k : key) (r : rec) : Prop :=
  holds s k (Some r) /\ wf_rec r /\ ~ expired now r.

(** What a client sees under [k] at clock value [now]. *)
Definition visible (s : store) (now : Z) (k : key) (o : option rec) : Prop :=
  match o with
  | Some r => live s now k r
  | None => holds s k None \/ exists r, holds s k (Some r) /\ wf_rec r /\ expired now r
  end.

(** ** Store commands *)

(** Which record a store command writes, given the record it found alive
    ([old], only meaningful for append/prepend/touch) and the version [v]. *)
Definition new_record (b : N) (e : entry) (old : rec) (v : N) : rec :=
  if has b behavior_append then mkRec (r_flag old) (r_expire old) v (r_data old ++ e_data e)
  else if has b behavior_prepend then mkRec (r_flag old) (r_expire old) v (e_data e ++ r_data old)
  else if has b behavior_touch then mkRec (r_flag old) (e_expire e) v (r_data old)
  else mkRec (e_flag e) (e_expire e) v (e_data e).

(** touch is never combined with append/prepend/cas (op_touch.cc, op_gat.cc,
    op_append.cc, op_prepend.cc, op_cas.cc pass single behaviours). *)
Definition sane_behavior (b : N) : Prop :=
  has b behavior_touch = true ->
  has b behavior_append = false /\ has b behavior_prepend = false /\ has b behavior_cas = false.

Definition reads_record (b : N) : bool :=
  has b behavior_append || has b behavior_prepend || has b behavior_touch.

(** The version a node associates with a key: that of the stored record, else
    that of the remembered tombstone, else 0. *)
Definition knows (s : store) (k : key) (v : N) : Prop :=
  (exists r, holds s k (Some r) /\ wf_rec r /\ r_version r = v)
  \/ (holds s k None /\ exists x, tomb s k = Some (x, v))
  \/ (holds s k None /\ tomb s k = None /\ v = 0).

(** The key is pending deletion: absent, with a tombstone that is not expired. *)
Definition pending_delete (s : store) (now : Z) (k : key) : Prop :=
  holds s k None /\ exists x v, tomb s k = Some (x, v) /\ (0 < x)%Z /\ (now < x)%Z.

(** The version a successful store command gives to the entry, from the
    version [cv] the node currently associates with the key. *)
Definition assigned_version (b : N) (e : entry) (cv : N) : N :=
  if has b behavior_cas then u64 (e_version e + 1)
  else if has b behavior_touch then cv
  else if e_version e =? 0 then u64 (cv + 1)
  else e_version e.

(** Store commands of the protocol and the behaviour bits they use
    (op_set.cc:44, op_add.cc:40, op_replace.cc:40, op_cas.cc:40, op_append.cc:41,
    op_prepend.cc:40, op_touch.cc:40). *)
Inductive cmd := CmdSet | CmdAdd | CmdReplace | CmdCas | CmdAppend | CmdPrepend | CmdTouch.
Definition cmd_behavior (c : cmd) : N :=
  match c with
  | CmdSet => 0
  | CmdAdd => behavior_add
  | CmdReplace => behavior_replace
  | CmdCas => behavior_cas
  | CmdAppend => N.lor behavior_replace behavior_append
  | CmdPrepend => N.lor behavior_replace behavior_prepend
  | CmdTouch => behavior_touch
  end.

(** Two states answer every read of every client alike. *)
Definition same_reads_for (P : key -> Prop) (s s' : store) : Prop :=
  forall now e b, P (e_key e) ->
    o_ret (get s' now e b) = o_ret (get s now e b)
    /\ o_res (get s' now e b) = o_res (get s now e b)
    /\ o_entry (get s' now e b) = o_entry (get s now e b).

(** From clock value [now] on, clients see the same under every key. *)
Definition unchanged_from (now : Z) (s s' : store) : Prop :=
  forall k now' o, (now <= now')%Z -> (visible s' now' k o <-> visible s now' k o).

(** [d] is the canonical decimal numeral of [n]. *)
Definition is_numeral (d : bytes) (n : N) : Prop :=
  d <> [] /\ Forall (fun c => 48 <= c <= 57) d /\ dec_val d = n
  /\ (forall d', d = 48 :: d' -> d' = []).

(** [n] is the number the data starts with: its longest digit prefix, if that
    is below 2^64; data with no such number counts as 0. *)
Definition starts_with_number (data : bytes) (n : N) : Prop :=
  exists ds rest, data = ds ++ rest /\ Forall (fun c => 48 <= c <= 57) ds
    /\ (forall c rest', rest = c :: rest' -> ~ 48 <= c <= 57)
    /\ n = if dec_val ds <? 2 ^ 64 then dec_val ds else 0.

(** What a command must find in order to store. *)
Definition can_store (c : cmd) (s : store) (now : Z) (e : entry) : Prop :=
  let k := e_key e in
  match c with
  | CmdSet => e_version e = 0 \/ forall r, live s now k r -> r_version r < e_version e
  | CmdAdd => (forall r, ~ live s now k r) /\ ~ pending_delete s now k
  | CmdReplace | CmdAppend | CmdPrepend =>
      exists r, live s now k r /\ (e_version e = 0 \/ r_version r < e_version e)
  | CmdCas => ((exists r, live s now k r) \/ pending_delete s now k) /\ knows s k (e_version e)
  | CmdTouch => exists r, live s now k r
  end.
Definition store_answer (c : cmd) : result := match c with CmdTouch => result_touched | _ => result_stored end.
(** The refusal answers of the protocol. *)
Definition refuse_answer (c : cmd) (s : store) (now : Z) (e : entry) (r : result) : Prop :=
  match c with
  | CmdTouch => r = result_not_found
  | CmdCas => (r = result_not_found /\ (forall x, ~ live s now (e_key e) x) /\ ~ pending_delete s now (e_key e))
              \/ (r = result_exists /\ ((exists x, live s now (e_key e) x) \/ pending_delete s now (e_key e))
                  /\ ~ knows s (e_key e) (e_version e))
  | _ => r = result_not_stored
  end.


(** Commands whose version is decided by this node or checked against what it
    knows: un-versioned stores, cas, touch, dump records; deletes obeying the
    version rule; reads; incr.  Excluded: explicitly versioned non-dump stores
    (replication), skip_version and flush. *)
Definition version_checked (o : op) : Prop :=
  match o with
  | OSet _ e b => has b behavior_skip_version = false /\
      (e_version e = 0 \/ has b behavior_cas = true \/ has b behavior_touch = true \/ has b behavior_dump = true)
  | ORemove _ e b => has b behavior_skip_version = false
  | OTruncate => False
  | _ => True
  end.

(** The explicit version an operation carries. *)
Definition op_version (o : op) : N :=
  match o with
  | OSet _ e _ | OIncr _ e _ _ _ | OGet _ e _ | ORemove _ e _ => e_version e
  | OTruncate => 0
  end.

(** The node still remembers a version for the key. *)
Definition remembered (s : store) (k : key) : Prop :=
  (exists r, holds s k (Some r)) \/ tomb s k <> None.

(** Operation [o] on state [s] reported [STORED] for key [k] with version [v]. *)
Definition stores_version (s : store) (o : op) (k : key) (v : N) : Prop :=
  op_key o = Some k /\ exists r, run_op s o = Some r /\ o_res r = Some result_stored
  /\ e_version (o_entry r) = v.

(** ** Histories *)

(** Along the history the node never forgets the version of key [k]: once it
    holds a record or tombstone for it, it keeps one. *)
Definition never_forgets (k : key) (s : store) (l : list op) : Prop :=
  forall l1 o l2 s1 r, l = l1 ++ o :: l2 -> run s l1 = Some s1 -> run_op s1 o = Some r ->
    remembered s1 k -> remembered (o_store r) k.

(** No operation of the history reports success in storing under [k]. *)
Definition no_store (k : key) (s : store) (l : list op) : Prop :=
  forall l1 o l2 s1 r, l = l1 ++ o :: l2 -> run s l1 = Some s1 -> run_op s1 o = Some r ->
    op_key o = Some k -> o_res r <> Some result_stored /\ o_res r <> Some result_touched.

(** Delivery of replicated records of one key, interleaved with anything on
    other keys: [o] is a versioned store of [k] (as a replica or a node under
    reconstruction receives it), a read of [k], or concerns another key. *)
Definition delivery (k : key) (o : op) : Prop :=
  match o with
  | OSet _ e b => e_key e = k -> e_version e <> 0 /\ (b = 0 \/ b = behavior_dump)
  | OGet _ e b => True
  | OTruncate => False
  | _ => op_key o <> Some k
  end.

(** The record an operation delivers for [k]. *)
Definition delivers (k : key) (o : op) (r : rec) : Prop :=
  exists now e b, o = OSet now e b /\ e_key e = k /\ r = rec_of e.

Definition op_time (o : op) : Z :=
  match o with
  | OSet now _ _ | OIncr now _ _ _ _ | OGet now _ _ | ORemove now _ _ => now
  | OTruncate => 0
  end.

(** [r] is the newest of the initial record (if any) and the delivered ones. *)
Definition newest (k : key) (init : option rec) (l : list op) (r : rec) : Prop :=
  let cand r' := init = Some r' \/ exists o, In o l /\ delivers k o r' in
  cand r /\ forall r', cand r' -> r_version r' <= r_version r.

(** Some operation of the history is a dump-mode store of [k]. *)
Definition dumps (k : key) (l : list op) : Prop :=
  exists now e, In (OSet now e behavior_dump) l /\ e_key e = k.

(** Nothing that is or will be stored under [k] is expired at any moment at
    which [k] is accessed. *)
Definition fresh (k : key) (init : option rec) (l : list op) : Prop :=
  forall o r, In o l -> op_key o = Some k ->
    (init = Some r \/ exists o', In o' l /\ delivers k o' r) -> ~ expired (op_time o) r.
