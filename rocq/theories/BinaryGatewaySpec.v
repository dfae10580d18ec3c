(** A cluster of which any node may be asked, in the text or in the binary protocol. *)
From Coq Require Import NArith ZArith List Bool.
From Verif Require Import Base TextSpec StorageSpec ClientSpec MemcachedSpec BinarySpec BinaryServerSpec GatewaySpec.
Import ListNotations.
Local Open Scope N_scope.

(** A request put to node [g_node], which reads it at the clock value [g_asked]; [g_now] is the clock value at the node that
    executes it, [g_pick] the random numbers drawn for the keys. *)
Record bturn := mkBTurn { g_node : bytes; g_pick : bytes -> nat; g_asked : Z; g_now : Z; g_ask : ask }.
(** What is answered, by one memory: as the text protocol or, up to opaque, tokens and quietness, the binary one wants. *)
Definition responds (t : bturn) (m m' : memory) (out : bytes) : Prop :=
  match g_ask t with
  | AskText c => does (g_asked t) (g_now t) m c m' out
  | AskBinary a => exists y, bdoes (g_asked t) (g_now t) m (a_call a) m' y /\ out = plain_answer a y
  end.
Inductive exchange : memory -> list bturn -> memory -> list bytes -> Prop :=
| exchange_nil m : exchange m [] m []
| exchange_cons m t m1 a l m2 b : responds t m m1 a -> exchange m1 l m2 b -> exchange m (t :: l) m2 (a :: b).

Definition keyed (c : bcall) : Prop := match c with QFlush | QNoop | QVersion | QQuit => False | _ => True end.
(** Requests that only the owner of the key handles as the protocol says: counting, and storing on condition of a token. *)
Definition owners_only (c : bcall) : Prop := match c with QCount _ _ _ _ | QCas _ _ _ _ _ => True | _ => False end.
(** As in GatewaySpec for text requests.  Keys of binary requests are keys of the text protocol; counting and storing with a
    token is asked of the owner of the key. *)
Definition bproper (owner : bytes -> bytes) (t : bturn) : Prop :=
  legal_node_name (g_node t) /\ clock (g_asked t) /\
  match g_ask t with
  | AskText c => legal_call c /\ (forall nr, c <> Flush nr) /\ (replied c \/ forall k, subject c k -> g_node t = owner k)
  | AskBinary a => legal_ask a /\ a_call a <> QFlush /\ (keyed (a_call a) -> legal_key (key_of (a_call a))) /\
                   (owners_only (a_call a) -> g_node t = owner (key_of (a_call a)))
  end.
Fixpoint rising_turns (T : Z) (l : list bturn) : Prop :=
  match l with [] => True | t :: l' => (T <= g_now t < 2 ^ 62)%Z /\ rising_turns (g_now t) l' end.
