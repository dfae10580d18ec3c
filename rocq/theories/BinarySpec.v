(** The memcached binary protocol, written down independently of the program. *)
From Coq Require Import NArith ZArith List.
From Verif Require Import Base.
Import ListNotations.
Local Open Scope N_scope.
Local Open Scope list_scope.

(** One message; [m_status] is the vbucket id in a request. *)
Record bmsg := mkMsg {
  m_magic : N; m_opcode : N; m_status : N; m_opaque : N; m_cas : N;
  m_extras : bytes; m_key : bytes; m_value : bytes;
}.
(** 24 byte header, all numbers in network byte order, then extras, key, value. *)
Definition header (m : bmsg) : bytes :=
  be_enc 1 (m_magic m) ++ be_enc 1 (m_opcode m) ++ be_enc 2 (blen (m_key m))
  ++ be_enc 1 (blen (m_extras m)) ++ be_enc 1 0 ++ be_enc 2 (m_status m)
  ++ be_enc 4 (blen (m_extras m) + blen (m_key m) + blen (m_value m))
  ++ be_enc 4 (m_opaque m) ++ be_enc 8 (m_cas m).
Definition body (m : bmsg) : bytes := m_extras m ++ m_key m ++ m_value m.
Definition encode (m : bmsg) : bytes := header m ++ body m.

(** Fields in range, and the body readable by a program that takes lengths as int. *)
Record well_sized (m : bmsg) : Prop := {
  z_magic : m_magic m < 2 ^ 8; z_opcode : m_opcode m < 2 ^ 8; z_status : m_status m < 2 ^ 16;
  z_opaque : m_opaque m < 2 ^ 32; z_cas : m_cas m < 2 ^ 64;
  z_extras : blen (m_extras m) < 2 ^ 8; z_key : blen (m_key m) < 2 ^ 16;
  z_total : blen (m_extras m) + blen (m_key m) + blen (m_value m) <= 2147483647;
}.
