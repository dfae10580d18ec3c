(** The same memcached (MemcachedSpec) spoken to in the binary protocol, and connections on which both protocols
    alternate.  Nothing here refers to the model of the code. *)
From Coq Require Import NArith ZArith List Bool String.
From Verif Require Import Base TextSpec ClientSpec StorageSpec MemcachedSpec BinarySpec.
Import ListNotations.
Local Open Scope N_scope.
Local Open Scope list_scope.

Inductive bcall :=
| QStore (md : mode) (k : bytes) (flags exptime : N) (data : bytes)
| QCas (k : bytes) (flags exptime : N) (data : bytes) (token : N)
| QTouch (k : bytes) (exptime : N)
| QGat (k : bytes) (exptime : N)
| QDelete (k : bytes)
(** with a value (and its exptime) to start from if there is no such item *)
| QCount (up : bool) (k : bytes) (amount : N) (initial : option (N * N))
| QGet (with_key : bool) (k : bytes)
| QFlush | QNoop | QVersion | QQuit.
Record bask := mkAsk { a_quiet : bool; a_opaque : N; a_call : bcall }.

(** ** The bytes of a request *)
Definition opcode_of (quiet : bool) (c : bcall) : N :=
  match c, quiet with
  | QStore Set_ _ _ _ _, false | QCas _ _ _ _ _, false => 1
  | QStore Set_ _ _ _ _, true | QCas _ _ _ _ _, true => 17
  | QStore Add _ _ _ _, false => 2 | QStore Add _ _ _ _, true => 18
  | QStore Replace _ _ _ _, false => 3 | QStore Replace _ _ _ _, true => 19
  | QStore Append _ _ _ _, false => 14 | QStore Append _ _ _ _, true => 25
  | QStore Prepend _ _ _ _, false => 15 | QStore Prepend _ _ _ _, true => 26
  | QDelete _, false => 4 | QDelete _, true => 20
  | QCount true _ _ _, false => 5 | QCount true _ _ _, true => 21
  | QCount false _ _ _, false => 6 | QCount false _ _ _, true => 22
  | QGet false _, false => 0 | QGet false _, true => 9
  | QGet true _, false => 12 | QGet true _, true => 13
  | QTouch _ _, _ => 28
  | QGat _ _, false => 29 | QGat _ _, true => 30
  | QFlush, false => 8 | QFlush, true => 24
  | QNoop, _ => 10 | QVersion, _ => 11
  | QQuit, false => 7 | QQuit, true => 23
  end.
Definition extras_of (c : bcall) : bytes :=
  match c with
  | QStore (Append | Prepend) _ _ _ _ => []
  | QStore _ _ f x _ | QCas _ f x _ _ => be_enc 4 f ++ be_enc 4 x
  | QTouch _ x | QGat _ x => be_enc 4 x
  | QCount _ _ v (Some (i, x)) => be_enc 8 v ++ be_enc 8 i ++ be_enc 4 x
  | QCount _ _ v None => be_enc 8 v ++ be_enc 8 0 ++ be_enc 4 4294967295
  | _ => []
  end.
Definition key_of (c : bcall) : bytes :=
  match c with
  | QStore _ k _ _ _ | QCas k _ _ _ _ | QTouch k _ | QGat k _ | QDelete k | QCount _ k _ _ | QGet _ k => k
  | _ => []
  end.
Definition value_of (c : bcall) : bytes := match c with QStore _ _ _ _ d | QCas _ _ _ d _ => d | _ => [] end.
Definition bwire (a : bask) : bytes :=
  let c := a_call a in
  encode (mkMsg 128 (opcode_of (a_quiet a) c) 0 (a_opaque a) (match c with QCas _ _ _ _ t => t | _ => 0 end)
            (extras_of c) (key_of c) (value_of c)).
(** A key is any non-empty sequence of bytes of which the length can be written down; the numbers are within their
    types; touch, noop and version have no quiet form. *)
Definition binary_key (k : bytes) : Prop := k <> [] /\ blen k < 2 ^ 16.
Definition legal_ask (a : bask) : Prop :=
  a_opaque a < 2 ^ 32 /\
  match a_call a with
  | QStore md k f x d => binary_key k /\ f < 2 ^ 32 /\ x < 2 ^ 32 /\ wf_bytes d
  | QCas k f x d t => binary_key k /\ f < 2 ^ 32 /\ x < 2 ^ 32 /\ wf_bytes d /\ 0 < t < 2 ^ 64
  | QTouch k x => binary_key k /\ x < 2 ^ 32 /\ a_quiet a = false
  | QGat k x => binary_key k /\ x < 2 ^ 32
  | QDelete k | QGet _ k => binary_key k
  | QCount _ k v i => binary_key k /\ v < 2 ^ 64 /\ match i with Some (i, x) => i < 2 ^ 64 /\ x < 2 ^ 32 - 1 | None => True end
  | QNoop | QVersion => a_quiet a = false
  | QFlush | QQuit => True
  end.

(** ** What it does *)
(** The request of the text protocol that does the same; append and prepend have no flags and no time. *)
Definition counterpart (c : bcall) : option call :=
  match c with
  | QStore Append k _ _ d => Some (Store Append k 0 0 d false)
  | QStore Prepend k _ _ d => Some (Store Prepend k 0 0 d false)
  | QStore md k f x d => Some (Store md k f (Z.of_N x) d false)
  | QCas k f x d t => Some (Cas k f (Z.of_N x) d t false)
  | QTouch k x => Some (Touch k (Z.of_N x) false)
  | QGat k x => Some (Gat k (Z.of_N x) false)
  | QDelete k => Some (Delete k false)
  | QCount up k v None => Some (Count up k v false)
  | QFlush => Some (Flush false)
  | QNoop => Some Ping
  | QQuit => Some Quit
  | QCount _ _ _ (Some _) | QGet _ _ | QVersion => None
  end.
(** Status and message for the outcomes the text protocol says in a word. *)
Definition status (word : bytes) : option (N * bytes) :=
  if existsb (beq word) [s2b "STORED"; s2b "TOUCHED"; s2b "DELETED"; s2b "OK"; s2b "END"] then Some (0, [])
  else if beq word (s2b "NOT_FOUND") then Some (1, s2b "Not found")
  else if beq word (s2b "EXISTS") then Some (2, s2b "Key exists")
  else if beq word (s2b "NOT_STORED") then Some (5, s2b "Item not stored")
  else None.
Record says := mkSays { y_status : N; y_token : N; y_extras : bytes; y_key : bytes; y_value : bytes }.
(** The token of the item a successful request has left. *)
Definition token (m : memory) (k : bytes) : N := match m k with Some r => r_version r | None => 0 end.
Inductive bdoes (asked now : Z) (m : memory) : bcall -> memory -> says -> Prop :=
| b_status c t m' word st msg : counterpart c = Some t -> does asked now m t m' (say false word) -> status word = Some (st, msg) ->
    bdoes asked now m c m' (mkSays st (if st =? 0 then token m' (key_of c) else 0) [] [] msg)
| b_gat k x r m' out : look m now k = Some r -> does asked now m (Gat k (Z.of_N x) false) m' out ->
    bdoes asked now m (QGat k x) m' (mkSays 0 (r_version r) (be_enc 4 (r_flag r)) [] (r_data r))
| b_counted up k v i m' d n : does asked now m (Count up k v false) m' (say false d) -> is_numeral d n ->
    bdoes asked now m (QCount up k v i) m' (mkSays 0 (token m' k) [] [] (be_enc 8 n))
| b_created up k v i x d t : look m now k = None -> is_numeral d i ->
    bdoes asked now m (QCount up k v (Some (i, x))) (update m k (Some (mkRec 0 (due asked (Z.of_N x)) t d))) (mkSays 0 t [] [] (be_enc 8 i))
| b_got (wk : bool) k r : look m now k = Some r ->
    bdoes asked now m (QGet wk k) m (mkSays 0 (r_version r) (be_enc 4 (r_flag r)) (if wk then k else []) (r_data r))
| b_missed (wk : bool) k : look m now k = None ->
    bdoes asked now m (QGet wk k) m (mkSays 1 0 [] (if wk then k else []) (s2b "Not found"))
| b_version : bdoes asked now m QVersion m (mkSays 0 0 [] [] (s2b "flare-1.3.4")).

(** The bytes the protocol wants as the answer: the opaque of the request comes back, the token is told, and a quiet
    request is not answered if it succeeds, a quiet get if it does not. *)
Definition hushed (c : bcall) (y : says) : bool :=
  match c with QGet _ _ | QGat _ _ => y_status y =? 1 | _ => y_status y =? 0 end.
Definition protocol_answer (a : bask) (y : says) : bytes :=
  if a_quiet a && hushed (a_call a) y then []
  else encode (mkMsg 129 (opcode_of (a_quiet a) (a_call a)) (y_status y) (a_opaque a) (y_token y) (y_extras y) (y_key y) (y_value y)).
(** The same without the three: every request is answered, opaque and token are zero. *)
Definition plain_answer (a : bask) (y : says) : bytes :=
  encode (mkMsg 129 (opcode_of (a_quiet a) (a_call a)) (y_status y) 0 0 (y_extras y) (y_key y) (y_value y)).

(** ** Connections on which both protocols are spoken *)
Inductive ask := AskText (c : call) | AskBinary (a : bask).
Definition ask_wire (q : ask) : bytes := match q with AskText c => wire c | AskBinary a => bwire a end.
Definition ask_legal (q : ask) : Prop := match q with AskText c => legal_call c | AskBinary a => legal_ask a end.
Definition ask_quits (q : ask) : bool :=
  match q with AskText Quit => true | AskBinary a => match a_call a with QQuit => true | _ => false end | _ => false end.
(** [answer] is one of the two functions above. *)
Definition ask_does (answer : bask -> says -> bytes) (now : Z) (m : memory) (q : ask) (m' : memory) (out : bytes) : Prop :=
  match q with
  | AskText c => does now now m c m' out
  | AskBinary a => exists y, bdoes now now m (a_call a) m' y /\ out = answer a y
  end.
Inductive mixed (answer : bask -> says -> bytes) : memory -> list (Z * ask) -> memory -> bytes -> Prop :=
| mix_nil m : mixed answer m [] m []
| mix_quit m now q l out : ask_quits q = true -> ask_does answer now m q m out -> mixed answer m ((now, q) :: l) m out
| mix_cons m now q m1 out l m2 out2 : ask_quits q = false -> ask_does answer now m q m1 out -> mixed answer m1 l m2 out2 ->
    mixed answer m ((now, q) :: l) m2 (out ++ out2).

(** What a client has to keep clear of: values that are too long, and counting from an initial value where there is no
    such item. *)
Definition unfit (now : Z) (m : memory) (q : ask) : Prop :=
  match q with
  | AskText c => too_long now m c
  | AskBinary a =>
      let c := a_call a in
      2147483647 < blen (extras_of c) + blen (key_of c) + blen (value_of c) \/
      (exists t, counterpart c = Some t /\ too_long now m t) \/
      (exists up k v i, c = QCount up k v (Some i) /\ look m now k = None)
  end.
Fixpoint rising_asks (T : Z) (l : list (Z * ask)) : Prop :=
  match l with
  | [] => True
  | (now, _) :: l' => (T <= now < 2 ^ 62)%Z /\ rising_asks now l'
  end.
Definition sent_asks (l : list (Z * ask)) : bytes := flat_map (fun p => ask_wire (snd p)) l.

(** The extras a request of the protocol has to have; [None]: this property says nothing of the operation. *)
Definition extras_wanted (opcode : N) : option N :=
  if existsb (N.eqb opcode) [1; 2; 3; 17; 18; 19] then Some 8
  else if existsb (N.eqb opcode) [0; 4; 9; 12; 13; 14; 15; 20; 25; 26] then Some 0
  else if existsb (N.eqb opcode) [5; 6; 21; 22] then Some 20
  else if existsb (N.eqb opcode) [28; 29; 30] then Some 4
  else None.
(** A whole message with extras of another length than its operation has, or a get without a key. *)
Definition misshapen (m : bmsg) : Prop :=
  (exists n, extras_wanted (m_opcode m) = Some n /\ blen (m_extras m) <> n) \/ (In (m_opcode m) [0; 9; 12; 13] /\ m_key m = []).
