(** Model of "stats threads", "stats threads request" and "stats threads slave":
    src/lib/op_stats.cc:64-92, 179-232, src/flared/op_stats_node.cc:74-88, thread_pool.cc:233-275,
    thread.cc:183-194, 460-477, on the pools of PoolModel. *)
From Coq Require Import NArith ZArith List Bool String.
From Verif Require Import Base TextModel NodeModel StatsModel PoolModel.
Import ListNotations.
Local Open Scope string_scope.
Local Open Scope N_scope.
Local Open Scope list_scope.

(** thread.h:60-72, what a thread shows besides its id and type: the peer, the operation, when it was set up, the state, the
    information, the length of its queue and, if there is a queue, since when its first entry waits. *)
Record shown := mkShown { t_peer : bytes; t_port : Z; t_op : bytes; t_since : Z; t_state : bytes; t_info : bytes; t_queue : N; t_front : Z }.
(** thread.cc:463-471: an int *)
Definition behind (now : Z) (x : shown) : Z :=
  if 0 <? u32 (t_queue x) then u32_to_i32 (i32_to_u32 (now - t_front x)) else 0%Z.
(** op_stats.cc:179-200: the eight lines of a thread; snprintf into BUFSIZ bytes *)
Definition thread_stats (now : Z) (e : Z * N * N) (x : shown) : list (bytes * bytes) :=
  let key f := snprintf (dec (id_of e) ++ s2b f) in
  [(key ":type", decZ (fst (fst e))); (key ":peer", snprintf (cstr (t_peer x) ++ s2b ":" ++ decZ (t_port x))); (key ":op", t_op x);
   (key ":uptime", decZ (now - t_since x)); (key ":state", t_state x); (key ":info", t_info x);
   (key ":queue", dec (u32 (t_queue x))); (key ":behind", decZ (behind now x))].

(** std::map of std::map (thread_pool.h:59-60): by type, then by id *)
Definition before (a b : Z * N * N) : bool :=
  (fst (fst a) <? fst (fst b))%Z || ((fst (fst a) =? fst (fst b))%Z && (id_of a <? id_of b)).
Fixpoint put (a : Z * N * N) (l : list (Z * N * N)) : list (Z * N * N) :=
  match l with [] => [a] | b :: l' => if before a b then a :: l else b :: put a l' end.
Definition in_order (l : list (Z * N * N)) : list (Z * N * N) := fold_right put [] l.
(** thread_pool.cc:233-246 without a type, 251-262 with one; the whole list under the lock *)
Definition get_thread_info (ty : option Z) (p : pool) : list (Z * N * N) :=
  in_order match ty with None => actives p | Some ty => filter (fun e => (fst (fst e) =? ty)%Z) (actives p) end.

(** op_stats_node.cc:74-88; the thread types of the slaves of this node come from its map (cluster.cc:373-399) *)
Inductive threads_asked := AllThreads | RequestThreads | SlaveThreads (types : list Z).
(** op_stats.cc:202-232: the lists that are taken, one after the other; thread_pool.h:48: type 1 *)
Definition lists_taken (k : threads_asked) : list (option Z * which) :=
  match k with
  | AllThreads => [(None, Req); (None, Other)]
  | RequestThreads => [(Some 1%Z, Req); (Some 1%Z, Other)]
  | SlaveThreads tys => flat_map (fun ty => [(Some ty, Req); (Some ty, Other)]) tys
  end.
(** Taking them while threads come and go: [gaps] is what happens before each. *)
Fixpoint collect (s : st) (gaps : list (list event)) (qs : list (option Z * which)) {struct qs} : option (list (Z * N * N)) :=
  match qs, gaps with
  | [], _ => Some []
  | (ty, w) :: qs', g :: gaps' =>
      match steps s g with
      | Some s1 => match collect s1 gaps' qs' with Some l => Some (get_thread_info ty (pools s1 w) ++ l) | None => None end
      | None => None
      end
  | _, [] => None
  end.
(** The report; [look] is what each thread shows when it is its turn. *)
Definition threads_stats (now : Z) (look : N -> shown) (l : list (Z * N * N)) : list (bytes * bytes) :=
  flat_map (fun e => thread_stats now e (look (thread_of e))) l.

(** What [stats] shows of the pools, taken at four moments: stats_node.cc:54-56 and thread_pool.cc:267-275 (the connections),
    stats.cc:171 and thread_pool.cc:216-228 (both pools), stats.cc:172 (the idle threads of the first).  All are uint32_t. *)
Definition connections (s : st) : N := u32 (N.of_nat (List.length (filter (fun e => (fst (fst e) =? 1)%Z) (actives (pools s Req))))).
Definition all_threads (s1 s2 : st) : N := u32 (N.of_nat (List.length (actives (pools s1 Req))) + N.of_nat (List.length (actives (pools s2 Other)))).
Definition idle_threads (s : st) : N := u32 (N.of_nat (List.length (stack (pools s Req)))).
Definition with_threads (u : surroundings) (s1 s2 s3 s4 : st) : surroundings :=
  mkSurroundings (u_pid u) (u_uptime u) (u_time u) (u_user u) (u_system u) (u_bytes u) (u_connections u) (u_read u) (u_written u)
    (all_threads s2 s3) (idle_threads s4) (u_queue u) (connections s1).

(** op.cc:68-77, op_stats.cc:47-98: which of the three a line asks for, with the types of the slaves; [None]: something else *)
Definition threads_line (types : list Z) (stream : bytes) : res (option threads_asked * bytes) :=
  let* (line, s1) := get_line stream in
  let* (c, rest) := parse_command line in
  if negb (beq (c_word c) (s2b "stats")) then Ok (None, s1) else
  let* (w, p) := call_word BUFSIZ rest in
  if negb (beq w (s2b "threads")) then Ok (None, s1) else
  let* (w2, _) := call_word BUFSIZ p in
  Ok (if beq w2 [] then Some AllThreads else if beq w2 (s2b "request") then Some RequestThreads
      else if beq w2 (s2b "slave") then Some (SlaveThreads types) else None, s1).

(** ** The map of a pool under its lock *)
(** The types the map of one pool has an entry for, and the threads that hold the lock for reading, each with whether it
    changes the map.  Asking by type for the list or for the size (thread_pool.cc:256, 269) uses operator[], which makes an
    entry for a type that has none; asking for the threads of a type (thread_pool.cc:139) looks first. *)
Record looked := mkLooked { entries : list Z; inside : list (N * option Z) }.
Inductive touch :=
| AskList (r : N) (ty : Z)    (* 255-258, 268-269 *)
| AskActive (r : N) (ty : Z)  (* 138-141 *)
| Leave (r : N)               (* 259, 270, 142 *)
| Register (ty : Z).          (* 84-110: the lock for writing *)
Definition zmem (x : Z) (l : list Z) : bool := existsb (Z.eqb x) l.
Definition touch_step (s : looked) (e : touch) : option looked :=
  match e with
  | AskList r ty => Some (mkLooked (entries s) ((r, if zmem ty (entries s) then None else Some ty) :: inside s))
  | AskActive r ty => Some (mkLooked (entries s) ((r, None) :: inside s))
  | Leave r =>
      match find (fun p => fst p =? r) (inside s) with
      | Some (_, made) => Some (mkLooked (match made with Some ty => ty :: entries s | None => entries s end) (filter (fun p => negb (fst p =? r)) (inside s)))
      | None => None
      end
  | Register ty => match inside s with [] => Some (mkLooked (ty :: entries s) []) | _ => None end
  end.
Fixpoint touch_steps (s : looked) (es : list touch) : option looked :=
  match es with [] => Some s | e :: es' => match touch_step s e with Some s' => touch_steps s' es' | None => None end end.
