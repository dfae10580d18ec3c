(** Vocabulary of the text protocol properties. *)
From Coq Require Import NArith ZArith List String.
From Verif Require Import Base StorageModel.
Import ListNotations.
Local Open Scope N_scope.

(** A byte that can be part of a word: not NUL, space or LF. *)
Definition word_byte (c : N) : Prop := c <> 0 /\ c <> 32 /\ c <> 10.
(** A key a text client can name: between 1 and 8191 word bytes. *)
Definition legal_key (k : bytes) : Prop := k <> [] /\ Forall word_byte k /\ blen k < 8192.

(** A node name in a proxy trail ("host:port"). *)
Definition legal_node_name (n : bytes) : Prop :=
  n <> [] /\ Forall (fun c => c <> 0 /\ c <> 10 /\ c <> 44 /\ c <> 62) n.

(** Expiry times held by a node are absolute: 0 (never) or past the 30 days below
    which a number on the wire means "seconds from now". *)
Definition absolute_expire (t : Z) : Prop := t = 0%Z \/ (2592000 < t < 2 ^ 63)%Z.

(** An entry a node can hold and send on: field widths of the C++ struct, data of
    the announced size (at most INT_MAX with its two byte terminator), option bits noreply/sync/async. *)
Record sendable (e : entry) : Prop := {
  s_key : legal_key (e_key e);
  s_flag : e_flag e < 2 ^ 32;
  s_expire : absolute_expire (e_expire e);
  s_size : e_size e = blen (e_data e);
  s_max : e_size e <= 2147483645;
  s_version : e_version e < 2 ^ 64;
  s_option : e_option e < 8;
}.
