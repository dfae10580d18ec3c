(** What the calls of the client library should return, in terms of the memory of MemcachedSpec. *)
From Coq Require Import NArith ZArith List Bool String.
From Verif Require Import Base StorageModel StorageSpec TextSpec NamesModel MemcachedSpec LibraryModel.
Import ListNotations.
Local Open Scope N_scope.

(** The request that a call puts to the node; connect puts none. *)
Definition as_call (c : lib_call) : option call :=
  match c with
  | LConnect | LDisconnect => None
  | LAdd k d f => Some (Store Add k (Z.to_N (f mod 2 ^ 32)) 0 d false)
  | LAddInt k i f => Some (Store Add k (Z.to_N (f mod 2 ^ 32)) 0 (decZ i) false)
  | LCas k d f v => Some (Cas k (Z.to_N (f mod 2 ^ 32)) 0 d v false)
  | LGet tk k _ _ => Some (Get tk [k])
  end.

(** What is told when the memory is [m] and the connection is there. *)
Definition tells (m : memory) (now : Z) (c : lib_call) : came :=
  match c with
  | LConnect | LDisconnect => Code 0
  | LAdd k _ _ | LAddInt k _ _ => Result (match look m now k with None => res_stored | Some _ => res_not_stored end)
  | LCas k _ _ v =>
      Result (match look m now k with None => res_not_found | Some r => if r_version r =? v then res_stored else res_exists end)
  | LGet tk k e _ =>
      match look m now k with
      | Some r => Entry res_ok (mkEntry k (r_flag r) 0 (blen (r_data r)) (if tk then r_version r else 0) (e_option e) (r_data r)) true
      | None => Entry res_not_found (mkEntry k (e_flag e) (e_expire e) (e_size e) (e_version e) (e_option e) (e_data e)) false
      end
  end.

(** A history: each request does to the memory what [does] says, and the call tells what it should. *)
Inductive history : memory -> list (Z * bool * lib_call) -> memory -> list came -> Prop :=
| hist_nil m : history m [] m []
| hist_none m now can c l m2 xs : as_call c = None -> history m l m2 xs -> history m ((now, can, c) :: l) m2 (tells m now c :: xs)
| hist_call m now can c q m1 a l m2 xs : as_call c = Some q -> does now now m q m1 a -> history m1 l m2 xs ->
    history m ((now, can, c) :: l) m2 (tells m now c :: xs).

(** Legal arguments: keys without blanks and control characters, numbers within their types, no value of more than 2^31 - 29
    bytes; the entry for get has no data; no disconnect. *)
Definition legal_lib (c : lib_call) : Prop :=
  match c with
  | LConnect => True
  | LDisconnect => False
  | LAdd k d _ => legal_key k /\ wf_bytes d /\ blen d <= max_value
  | LAddInt k i _ => legal_key k /\ (- 2 ^ 31 <= i < 2 ^ 31)%Z
  | LCas k d _ v => legal_key k /\ wf_bytes d /\ blen d <= max_value /\ v < 2 ^ 64
  | LGet _ k _ have => legal_key k /\ have = false
  end.

(** Clock values do not run backwards from [T]. *)
Fixpoint rising_lib (T : Z) (l : list (Z * bool * lib_call)) : Prop :=
  match l with
  | [] => True
  | (now, _, _) :: l' => (T <= now < 2 ^ 62)%Z /\ rising_lib now l'
  end.
