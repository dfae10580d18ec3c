(** A memcached: an abstract memory, the requests of the text protocol as the bytes a client sends, and what each
    request does to the memory and answers.  Nothing here refers to the model of the code. *)
From Coq Require Import NArith ZArith List Bool String.
From Verif Require Import Base TextSpec ClientSpec StorageSpec.
Import ListNotations.
Local Open Scope N_scope.

(** What is remembered under each key: flags, due time, token, data; items past their due time are still
    in the memory but not found any more. *)
Definition memory := bytes -> option rec.
Definition look (m : memory) (now : Z) (k : bytes) : option rec :=
  match m k with
  | Some r => if ((0 <? r_expire r) && (r_expire r <=? now))%Z then None else Some r
  | None => None
  end.
Definition update (m : memory) (k : bytes) (o : option rec) : memory := fun k' => if beq k k' then o else m k'.

Inductive mode := Set_ | Add | Replace | Append | Prepend.
Inductive call :=
| Store (md : mode) (k : bytes) (flags : N) (exptime : Z) (data : bytes) (noreply : bool)
| Cas (k : bytes) (flags : N) (exptime : Z) (data : bytes) (token : N) (noreply : bool)
| Touch (k : bytes) (exptime : Z) (noreply : bool)
| Gat (k : bytes) (exptime : Z) (noreply : bool)
| Delete (k : bytes) (noreply : bool)
| Count (up : bool) (k : bytes) (amount : N) (noreply : bool)
| Get (tokens : bool) (ks : list bytes)
| Flush (noreply : bool)
| Verbosity (level : N) (noreply : bool)
| Ping | Version
| Unknown (word rest : bytes)
| Quit.

(** ** The bytes of a request *)
Definition mode_word (md : mode) : bytes :=
  match md with Set_ => s2b "set" | Add => s2b "add" | Replace => s2b "replace" | Append => s2b "append" | Prepend => s2b "prepend" end.
Definition wire (c : call) : bytes :=
  match c with
  | Store md k f x d nr => client_store (mode_word md) k f x d None nr
  | Cas k f x d t nr => client_store (s2b "cas") k f x d (Some t) nr
  | Touch k x nr => client_touch (s2b "touch") k x nr
  | Gat k x nr => client_touch (s2b "gat") k x nr
  | Delete k nr => client_delete k None nr
  | Count up k v nr => (if up then s2b "incr" else s2b "decr") ++ space k ++ space (dec v) ++ noreply_word nr ++ line_end
  | Get tk ks => (if tk then s2b "gets" else s2b "get") ++ flat_map space ks ++ line_end
  | Flush nr => s2b "flush_all" ++ noreply_word nr ++ line_end
  | Verbosity v nr => s2b "verbosity" ++ space (dec v) ++ noreply_word nr ++ line_end
  | Ping => s2b "ping" ++ line_end
  | Version => s2b "version" ++ line_end
  | Unknown w rest => w ++ rest ++ line_end
  | Quit => s2b "quit" ++ line_end
  end.
(** The words a request can begin with. *)
Definition request_words : list bytes :=
  [s2b "get"; s2b "gets"; s2b "set"; s2b "add"; s2b "replace"; s2b "append"; s2b "prepend"; s2b "cas"; s2b "incr"; s2b "decr"; s2b "delete";
   s2b "touch"; s2b "gat"; s2b "ping"; s2b "version"; s2b "quit"; s2b "flush_all"; s2b "verbosity"; s2b "stats"; s2b "node"; s2b "keys";
   s2b "dump"; s2b "dump_key"; s2b "kill"; s2b "show"].
(** Keys are non-empty and have no spaces or control characters; the numbers are within their types. *)
Definition legal_call (c : call) : Prop :=
  match c with
  | Store _ k f x d _ => legal_key k /\ f < 2 ^ 32 /\ (0 <= x < 2 ^ 63)%Z /\ wf_bytes d
  | Cas k f x d t _ => legal_key k /\ f < 2 ^ 32 /\ (0 <= x < 2 ^ 63)%Z /\ wf_bytes d /\ t < 2 ^ 64
  | Touch k x _ | Gat k x _ => legal_key k /\ (0 <= x < 2 ^ 63)%Z
  | Delete k _ => legal_key k
  | Count _ k v _ => legal_key k /\ v < 2 ^ 64
  | Get _ ks => ks <> [] /\ Forall legal_key ks
  | Verbosity v _ => v < 2 ^ 31
  | Unknown w rest =>
      legal_key w /\ blen w < 1024 /\ ~ In w request_words /\ hd 0 w <> 60 /\ hd 0 w <> 128 /\
      Forall (fun c => c <> 10) rest /\ hd 32 rest = 32
  | _ => True
  end.

(** ** What it does *)
Definition stores (md : mode) (old : option rec) : bool :=
  match md, old with
  | Set_, _ | Add, None | (Replace | Append | Prepend), Some _ => true
  | _, _ => false
  end.
(** append and prepend keep flags and due time of the item. *)
Definition written (md : mode) (old : option rec) (flags : N) (expire : Z) (data : bytes) (token : N) : rec :=
  match md, old with
  | Append, Some r => mkRec (r_flag r) (r_expire r) token (r_data r ++ data)
  | Prepend, Some r => mkRec (r_flag r) (r_expire r) token (data ++ r_data r)
  | _, _ => mkRec flags expire token data
  end.
(** A new token is larger than that of the item it replaces. *)
Definition fresh_token (old : option rec) (t : N) : Prop := match old with Some r => r_version r < t | None => True end.
Definition say (noreply : bool) (line : bytes) : bytes := if noreply then [] else line ++ line_end.
Definition item_lines (tokens : bool) (k : bytes) (r : rec) : bytes :=
  s2b "VALUE" ++ space k ++ space (dec (r_flag r)) ++ space (dec (blen (r_data r)))
  ++ (if tokens then space (dec (r_version r)) else []) ++ line_end ++ r_data r ++ line_end.
Definition found_lines (m : memory) (now : Z) (tokens : bool) (k : bytes) : bytes :=
  match look m now k with Some r => item_lines tokens k r | None => [] end.

(** The request is read at the clock value [asked], which times relative to now count from, and executed at [now]. *)
Inductive does (asked now : Z) (m : memory) : call -> memory -> bytes -> Prop :=
| stored md k f x d nr t : stores md (look m now k) = true -> fresh_token (look m now k) t ->
    does asked now m (Store md k f x d nr) (update m k (Some (written md (look m now k) f (due asked x) d t))) (say nr (s2b "STORED"))
| not_stored md k f x d nr : stores md (look m now k) = false ->
    does asked now m (Store md k f x d nr) m (say nr (s2b "NOT_STORED"))
| cas_stored k f x d t nr r t' : look m now k = Some r -> r_version r = t -> t < t' ->
    does asked now m (Cas k f x d t nr) (update m k (Some (mkRec f (due asked x) t' d))) (say nr (s2b "STORED"))
| cas_exists k f x d t nr r : look m now k = Some r -> r_version r <> t ->
    does asked now m (Cas k f x d t nr) m (say nr (s2b "EXISTS"))
| cas_missing k f x d t nr : look m now k = None ->
    does asked now m (Cas k f x d t nr) m (say nr (s2b "NOT_FOUND"))
| touched k x nr r : look m now k = Some r ->
    does asked now m (Touch k x nr) (update m k (Some (mkRec (r_flag r) (due asked x) (r_version r) (r_data r)))) (say nr (s2b "TOUCHED"))
| touch_missing k x nr : look m now k = None -> does asked now m (Touch k x nr) m (say nr (s2b "NOT_FOUND"))
| gat_found k x (nr : bool) r : look m now k = Some r ->
    does asked now m (Gat k x nr) (update m k (Some (mkRec (r_flag r) (due asked x) (r_version r) (r_data r))))
      (if nr then [] else item_lines false k r)
| gat_missing k x nr : look m now k = None -> does asked now m (Gat k x nr) m (say nr (s2b "NOT_FOUND"))
| deleted k nr r : look m now k = Some r -> does asked now m (Delete k nr) (update m k None) (say nr (s2b "DELETED"))
| delete_missing k nr : look m now k = None -> does asked now m (Delete k nr) m (say nr (s2b "NOT_FOUND"))
(** data that does not start with a number counts as 0; the result stays between 0 and 2^64-1 *)
| counted (up : bool) k v nr r n d t : look m now k = Some r -> starts_with_number (r_data r) n ->
    is_numeral d (if up then N.min (n + v) (2 ^ 64 - 1) else n - v) -> r_version r < t ->
    does asked now m (Count up k v nr) (update m k (Some (mkRec (r_flag r) (r_expire r) t d))) (say nr d)
| count_missing (up : bool) k v nr : look m now k = None -> does asked now m (Count up k v nr) m (say nr (s2b "NOT_FOUND"))
| got tk ks : does asked now m (Get tk ks) m (flat_map (found_lines m now tk) ks ++ s2b "END" ++ line_end)
| flushed nr : does asked now m (Flush nr) (fun _ => None) (say nr (s2b "OK"))
| verbose v nr : does asked now m (Verbosity v nr) m (say nr (s2b "OK"))
| pinged : does asked now m Ping m (say false (s2b "OK"))
| versioned : does asked now m Version m (say false (s2b "VERSION flare-1.3.4"))
| unknown w rest : does asked now m (Unknown w rest) m (say false (s2b "ERROR"))
| left : does asked now m Quit m (say false (s2b "END")).

(** A conversation: requests with the clock values at which they are served, and all the bytes answered; it ends with
    quit. *)
Inductive conversation : memory -> list (Z * call) -> memory -> bytes -> Prop :=
| conv_nil m : conversation m [] m []
| conv_quit m now l a : does now now m Quit m a -> conversation m ((now, Quit) :: l) m a
| conv_cons m now c m1 a l m2 b : c <> Quit -> does now now m c m1 a -> conversation m1 l m2 b -> conversation m ((now, c) :: l) m2 (a ++ b).

(** The one thing a client has to keep clear of: values of more than 2^31 - 29 bytes. *)
Definition max_value : N := 2147483619.
Definition too_long (now : Z) (m : memory) (c : call) : Prop :=
  match c with
  | Store md k _ _ d _ =>
      max_value < blen d \/
      (md = Append \/ md = Prepend) /\ exists r, look m now k = Some r /\ max_value < blen (r_data r) + blen d
  | Cas _ _ _ d _ _ => max_value < blen d
  | _ => False
  end.

(** Clock values: do not run backwards from [T]. *)
Fixpoint rising (T : Z) (l : list (Z * call)) : Prop :=
  match l with
  | [] => True
  | (now, _) :: l' => (T <= now < 2 ^ 62)%Z /\ rising now l'
  end.

(** Everything a client sends in a session. *)
Definition sent (l : list (Z * call)) : bytes := flat_map (fun p => wire (snd p)) l.

(** The bytes of all values the requests of a session carry; a counter has at most 20. *)
Fixpoint carried (l : list (Z * call)) : N :=
  match l with
  | [] => 0
  | (_, Store _ _ _ _ d _) :: l' | (_, Cas _ _ _ d _ _) :: l' => blen d + carried l'
  | (_, Count _ _ _ _) :: l' => 20 + carried l'
  | _ :: l' => carried l'
  end.
