(** Where the index server keeps its map: the option index-db, or else data-dir, is read by regular
    expressions into an address, and the address decides which coordinator is used and where it keeps the map.
    flarei.cc:169-186, coordinator_factory.cc:82-110, coordinator.h:57-91, file_coordinator.cc:48-54, 78-80,
    zookeeper_coordinator.cc:52-82, zookeeper_coordinator.h:73-120.

    Not modelled: values of options with a NUL byte in them (c_str() cuts them off there). *)
From Coq Require Import NArith ZArith List Bool String.
From Verif Require Import Base TextModel.
Import ListNotations.
Local Open Scope N_scope.

(** ** boost::regex
    The part of Perl's regular expressions that the patterns use, with the meaning boost::regex gives it: the
    ways to match are tried in order, longer ones first, and the first that lets the rest of the pattern match
    counts.  [run r s c] is the list of all ways to match a beginning of [s], in that order, each with what is
    left and with the groups captured so far. *)
Inductive re :=
| Lit (w : bytes)               (* the bytes of [w] *)
| Star (p : N -> bool)          (* any number of characters in [p] *)
| Plus (p : N -> bool)          (* at least one *)
| Opt (r : re)                  (* [r] or nothing *)
| Grp (n : nat) (r : re)        (* the group with number [n] *)
| Seq (a b : re).
Definition caps := list (nat * bytes).
Fixpoint strip (w s : bytes) : option bytes :=
  match w, s with
  | [], _ => Some s
  | x :: w, y :: s => if x =? y then strip w s else None
  | _ :: _, [] => None
  end.
(** what is left after each number of characters in [p], the largest number first *)
Fixpoint lefts (p : N -> bool) (s : bytes) : list bytes :=
  match s with
  | [] => [[]]
  | x :: t => if p x then lefts p t ++ [s] else [s]
  end.
Fixpoint run (r : re) (s : bytes) (c : caps) : list (bytes * caps) :=
  match r with
  | Lit w => match strip w s with Some t => [(t, c)] | None => [] end
  | Star p => map (fun t => (t, c)) (lefts p s)
  | Plus p => match s with x :: t => if p x then map (fun t => (t, c)) (lefts p t) else [] | [] => [] end
  | Opt r => run r s c ++ [(s, c)]
  | Grp n r => map (fun tc => (fst tc, (n, firstn (List.length s - List.length (fst tc)) s) :: snd tc)) (run r s c)
  | Seq a b => flat_map (fun tc => run b (fst tc) (snd tc)) (run a s c)
  end.
(** regex_match: the whole string must match *)
Definition at_end (tc : bytes * caps) : bool := match fst tc with [] => true | _ => false end.
Definition regex_match (r : re) (s : bytes) : option caps :=
  match find at_end (run r s []) with Some (_, c) => Some c | None => None end.
(** match[n]: [None] when the group did not take part or nothing matched; str() is then empty *)
Definition matched (m : option caps) (n : nat) : option bytes :=
  match m with
  | None => None
  | Some c => match find (fun g => Nat.eqb (fst g) n) c with Some (_, w) => Some w | None => None end
  end.
Definition str (m : option caps) (n : nat) : bytes := match matched m n with Some w => w | None => [] end.
(** a character that is none of [l] *)
Definition none_of (l : list N) (x : N) : bool := negb (existsb (N.eqb x) l).
Definition any (_ : N) : bool := true.
Definition colon : N := 58.
Definition slash : N := 47.
Definition at_sign : N := 64.
Definition question : N := 63.
Definition hash_sign : N := 35.
Definition comma : N := 44.
Definition scheme_end : bytes := s2b "://".

(** ** coordinator.h:57-91 *)
(** coordinator.h:70, the scheme: one or more characters other than a colon, then "://" *)
Definition scheme_re : re := Seq (Grp 1 (Plus (none_of [colon]))) (Lit scheme_end).
(** coordinator.h:71: a user and an at sign or neither, a host, a colon and digits or neither; with the numbers
    of the three groups *)
Definition authority_re (user host port : nat) : re :=
  Seq (Opt (Seq (Grp user (Star (none_of [colon; slash; at_sign]))) (Lit [at_sign])))
 (Seq (Grp host (Star (none_of [colon; at_sign; slash])))
      (Opt (Seq (Lit [colon]) (Grp port (Plus is_digit))))).
(** coordinator.h:72: a slash and what is no question mark; a question mark and what is no number sign, or
    neither; a number sign and anything, or neither *)
Definition body_re (path query fragment : nat) : re :=
  Seq (Grp path (Seq (Lit [slash]) (Star (none_of [question]))))
 (Seq (Opt (Seq (Lit [question]) (Grp query (Star (none_of [hash_sign])))))
      (Opt (Seq (Lit [hash_sign]) (Grp fragment (Star any))))).
Definition uri_re : re := Seq scheme_re (Seq (Grp 2 (authority_re 3 4 5)) (body_re 6 7 8)).
Record uri := mkUri
  { u_scheme : bytes; u_authority : bytes; u_user : bytes; u_host : bytes; u_port : Z;
    u_path : bytes; u_query : bytes; u_fragment : bytes }.
(** coordinator.h:81-86: lexical_cast<int>, a failure counts as 0 *)
Definition port_of (w : bytes) : Z := match lex_i32 w with Ok p => p | _ => 0%Z end.
Definition uri_of (s : bytes) : uri :=
  let m := regex_match uri_re s in
  mkUri (str m 1) (str m 2) (str m 3) (str m 4) (port_of (str m 5)) (str m 6) (str m 7) (str m 8).

(** ** zookeeper_coordinator.h:73-120 *)
(** zookeeper_coordinator.h:88-91: up to five authorities *)
Definition segment_re (n : nat) : re := Grp n (Star (none_of [comma; slash])).
Definition more_re (n : nat) : re := Opt (Seq (Lit [comma]) (segment_re n)).
Definition ext_re : re :=
  Seq scheme_re
 (Seq (Opt (segment_re 2)) (Seq (more_re 3) (Seq (more_re 4) (Seq (more_re 5) (Seq (more_re 6) (body_re 7 8 9)))))).
Record ext_uri := mkExt { e_scheme : bytes; e_authorities : list (bytes * bytes * Z); e_path : bytes }.
(** zookeeper_coordinator.h:102-114 *)
Definition authority_of (s : bytes) : bytes * bytes * Z :=
  let m := regex_match (authority_re 1 2 3) s in (str m 1, str m 2, port_of (str m 3)).
(** zookeeper_coordinator.h:95-101 *)
Definition segments (m : option caps) : list bytes :=
  str m 2 :: flat_map (fun n => match matched m n with Some w => [w] | None => [] end) [3; 4; 5; 6]%nat.
Definition ext_of (s : bytes) : ext_uri :=
  let m := regex_match ext_re s in mkExt (str m 1) (map authority_of (segments m)) (str m 7).

(** ** The coordinators *)
Inductive coordinator :=
| File (path : bytes)             (* file_coordinator; [path] is what get_path() returns *)
| Zookeeper (connstring : bytes). (* zookeeper_coordinator with the string it gives to zookeeper_init *)
(** file_coordinator.cc:78-80, 113: the file written by every save and read at the start, and the file that is
    renamed to it *)
Definition state_file (path : bytes) : bytes := path ++ s2b "/flare.xml".
Definition temp_file (path : bytes) : bytes := state_file path ++ s2b ".tmp".
(** zookeeper_coordinator.cc:69-81 *)
Definition host_port (a : bytes * bytes * Z) : bytes := snd (fst a) ++ [colon] ++ decZ (snd a).
Definition connstring (u : ext_uri) : bytes :=
  match e_authorities u with
  | [] => []
  | a :: l => host_port a ++ flat_map (fun b => comma :: host_port b) l
  end ++ e_path u.
(** coordinator_factory.cc:82-110.  [zk] says whether the program is built with ZooKeeper, [setup] whether
    setup() succeeds with a string. *)
Definition identifier_re : re := Seq scheme_re (Plus any).
Definition create (zk : bool) (setup : bytes -> bool) (identifier : bytes) : option coordinator :=
  let scheme := str (regex_match identifier_re identifier) 1 in
  if beq scheme (s2b "file") then Some (File (u_path (uri_of identifier)))
  else if zk && beq scheme (s2b "zookeeper") then
    let c := connstring (ext_of identifier) in if setup c then Some (Zookeeper c) else None
  else None.
(** flarei.cc:169-186: [None] when the index server does not start.  ini_option.cc:155-158: data-dir is not
    empty. *)
Definition start (zk : bool) (setup : bytes -> bool) (index_db data_dir : bytes) : option coordinator :=
  create zk setup (match index_db with [] => s2b "file://" ++ data_dir | _ => index_db end).
