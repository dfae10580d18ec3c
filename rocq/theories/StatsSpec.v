(** What is said about statistics: how a client reads them, and what they have to count. *)
From Coq Require Import NArith ZArith List Bool String.
From Verif Require Import Base TextSpec ClientSpec StorageSpec MemcachedSpec BinarySpec BinaryServerSpec ClusterModel StatsModel.
Import ListNotations.
Local Open Scope N_scope.
Local Open Scope list_scope.

(** ** How a client reads the answer *)
(** Text: lines "STAT <name> <value>", then the line "END" and nothing more. *)
Fixpoint upto_crlf (a : bytes) : option (bytes * bytes) :=
  match a with
  | 13 :: 10 :: r => Some ([], r)
  | c :: r => match upto_crlf r with Some (x, y) => Some (c :: x, y) | None => None end
  | [] => None
  end.
Fixpoint upto_blank (a : bytes) : option (bytes * bytes) :=
  match a with
  | 32 :: r => Some ([], r)
  | c :: r => match upto_blank r with Some (x, y) => Some (c :: x, y) | None => None end
  | [] => None
  end.
Fixpoint read_stats (fuel : nat) (a : bytes) : option (list (bytes * bytes)) :=
  match fuel, upto_crlf a with
  | S f, Some (line, r) =>
      if beq line (s2b "END") then match r with [] => Some [] | _ => None end
      else if beq (firstn 5 line) (s2b "STAT ") then
        match upto_blank (skipn 5 line), read_stats f r with
        | Some p, Some l => Some (p :: l)
        | _, _ => None
        end
      else None
  | _, _ => None
  end.
Definition text_reads (a : bytes) : option (list (bytes * bytes)) := read_stats (S (List.length a)) a.
(** Binary: one message for each, the name as the key, then one without key and value. *)
Definition stat_message (p : bytes * bytes) : bmsg := mkMsg 129 16 0 0 0 [] (fst p) (snd p).
Definition binary_reads (a : bytes) (l : list (bytes * bytes)) : Prop :=
  a = flat_map (fun p => encode (stat_message p)) l ++ encode (stat_message ([], [])) /\ Forall (fun p => fst p <> []) l.
(** The value under a name. *)
Fixpoint stat (name : bytes) (l : list (bytes * bytes)) : option bytes :=
  match l with
  | [] => None
  | (k, v) :: l' => if beq k name then Some v else stat name l'
  end.

(** ** What is counted *)
Definition counter_name (x : counter) : bytes :=
  s2b match x with
  | AllGets => "cmd_get" | AllSets => "cmd_set" | GetHits => "get_hits" | GetMisses => "get_misses" | DeleteHits => "delete_hits"
  | DeleteMisses => "delete_misses" | IncrHits => "incr_hits" | IncrMisses => "incr_misses" | DecrHits => "decr_hits"
  | DecrMisses => "decr_misses" | CasHits => "cas_hits" | CasMisses => "cas_misses" | CasBadval => "cas_badval"
  | TouchHits => "touch_hits" | TouchMisses => "touch_misses" | TotalItems => "total_items"
  end.
Definition hit_or (a b : counter) (o : option rec) : counter := match o with Some _ => a | None => b end.
(** The counters a request served at [now] has to move, by the memory it finds: one entry for each step of one. *)
Definition moves (now : Z) (m : memory) (c : call) : list counter :=
  match c with
  | Store md k _ _ _ _ => AllSets :: if stores md (look m now k) then [TotalItems] else []
  | Cas k _ _ _ t _ =>
      AllSets :: match look m now k with
                | Some r => if r_version r =? t then [TotalItems; CasHits] else [CasBadval]
                | None => [CasMisses]
                end
  | Touch k _ _ => [AllSets; hit_or TouchHits TouchMisses (look m now k)]
  | Gat k _ _ => [AllSets]
  | Delete k _ => [hit_or DeleteHits DeleteMisses (look m now k)]
  | Count up k _ _ => [if up then hit_or IncrHits IncrMisses (look m now k) else hit_or DecrHits DecrMisses (look m now k)]
  | Get _ ks => flat_map (fun k => [AllGets; hit_or GetHits GetMisses (look m now k)]) ks
  | _ => []
  end.
(** In the binary protocol: as the counterpart in the text protocol. *)
Definition bmoves (now : Z) (m : memory) (c : bcall) : list counter :=
  match c with
  | QGet _ k => moves now m (Get false [k])
  | QCount up k v _ => moves now m (Count up k v false)
  | _ => match counterpart c with Some t => moves now m t | None => [] end
  end.
Definition ask_moves (now : Z) (m : memory) (q : ask) : list counter :=
  match q with AskText c => moves now m c | AskBinary a => bmoves now m (a_call a) end.
(** How often a counter is in a list of moves. *)
Definition times (x : counter) (l : list counter) : N := N.of_nat (List.length (List.filter (counter_eqb x) l)).

(** ** Sessions in which statistics are asked for *)
Inductive report := General | Nodes.
Inductive act :=
| Ask (q : ask)
| SeeText (r : report)
| SeeBinary (r : report) (opaque : N).
Definition report_word (r : report) : bytes := match r with General => [] | Nodes => s2b "nodes" end.
Definition act_wire (x : act) : bytes :=
  match x with
  | Ask q => ask_wire q
  | SeeText r => s2b "stats" ++ match r with General => [] | Nodes => space (s2b "nodes") end ++ line_end
  | SeeBinary r o => encode (mkMsg 128 16 0 o 0 [] (report_word r) [])
  end.
Definition act_legal (x : act) : Prop :=
  match x with Ask q => ask_legal q | SeeText _ => True | SeeBinary _ o => o < 2 ^ 32 end.
Definition act_quits (x : act) : bool := match x with Ask q => ask_quits q | _ => false end.
Definition act_unfit (now : Z) (m : memory) (x : act) : Prop := match x with Ask q => unfit now m q | _ => False end.

(** The five lines of a node. *)
Definition shown_role (r : role) : bytes := s2b match r with Master => "master" | Slave => "slave" | Proxy => "proxy" end.
Definition shown_state (s : nstate) : bytes := s2b match s with Active => "active" | Prepare => "prepare" | Down => "down" | Ready => "ready" end.
Definition node_lines (n : node) : list (bytes * bytes) :=
  let name := n_name n ++ s2b ":" ++ decZ (n_port n) in
  [(name ++ s2b ":role", shown_role (n_role n)); (name ++ s2b ":state", shown_state (n_state n));
   (name ++ s2b ":partition", decZ (n_partition n)); (name ++ s2b ":balance", decZ (n_balance n));
   (name ++ s2b ":thread_type", decZ (n_thread n))].
(** The report is right: the counters show the moves [h] so far (total_items has 32 bits, the others 64); there is a line
    for every item that is there; the nodes are those of the map. *)
Definition right (now : Z) (m : memory) (h : list counter) (nodes : list node) (version : N) (r : report) (l : list (bytes * bytes)) : Prop :=
  match r with
  | General =>
      (forall x, x <> TotalItems -> stat (counter_name x) l = Some (dec (times x h mod 2 ^ 64))) /\
      stat (s2b "total_items") l = Some (dec (times TotalItems h mod 2 ^ 32)) /\
      stat (s2b "node_map_version") l = Some (dec version) /\
      exists n, stat (s2b "curr_items") l = Some (dec (n mod 2 ^ 32)) /\
        forall ks, List.NoDup ks -> (forall k, In k ks -> look m now k <> None) -> N.of_nat (List.length ks) <= n
  | Nodes => l = flat_map node_lines nodes
  end.
(** A session: memory, moves so far, requests; at the end memory, moves, answers. *)
Inductive observed (nodes : list node) (version : N) : memory -> list counter -> list (Z * act) -> memory -> list counter -> list bytes -> Prop :=
| obs_nil m h : observed nodes version m h [] m h []
| obs_quit m h now q l m1 out : ask_quits q = true -> ask_does plain_answer now m q m1 out ->
    observed nodes version m h ((now, Ask q) :: l) m1 (ask_moves now m q ++ h) [out]
| obs_ask m h now q m1 out l m2 h2 outs : ask_quits q = false -> ask_does plain_answer now m q m1 out ->
    observed nodes version m1 (ask_moves now m q ++ h) l m2 h2 outs ->
    observed nodes version m h ((now, Ask q) :: l) m2 h2 (out :: outs)
| obs_text m h now r out p l m2 h2 outs : text_reads out = Some p -> right now m h nodes version r p ->
    observed nodes version m h l m2 h2 outs -> observed nodes version m h ((now, SeeText r) :: l) m2 h2 (out :: outs)
| obs_binary m h now r o out p l m2 h2 outs : binary_reads out p -> right now m h nodes version r p ->
    observed nodes version m h l m2 h2 outs -> observed nodes version m h ((now, SeeBinary r o) :: l) m2 h2 (out :: outs).
Fixpoint rising_acts (T : Z) (l : list (Z * act)) : Prop :=
  match l with
  | [] => True
  | (now, _) :: l' => (T <= now < 2 ^ 62)%Z /\ rising_acts now l'
  end.
Definition sent_acts (l : list (Z * act)) : bytes := flat_map (fun p => act_wire (snd p)) l.
(** Numbers of the surroundings within the types they are printed from; times used without line feed. *)
Definition fair (u : surroundings) : Prop :=
  is_i64 (u_pid u) /\ is_i64 (u_uptime u) /\ is_i64 (u_time u) /\ u_bytes u < 2 ^ 64 /\ u_connections u < 2 ^ 64 /\ u_read u < 2 ^ 64 /\
  u_written u < 2 ^ 64 /\ u_threads u < 2 ^ 64 /\ u_pool u < 2 ^ 64 /\
  (Forall (fun c => c <> 10) (u_user u) /\ blen (u_user u) < 8192) /\ (Forall (fun c => c <> 10) (u_system u) /\ blen (u_system u) < 8192).
