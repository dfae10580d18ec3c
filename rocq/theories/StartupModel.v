(** Model of the start of a node: the settings of the index server (src/flarei/flarei.cc,
    zookeeper_coordinator.cc get_meta_variables), the request 'meta' (op_meta.cc), the conversation of
    cluster::startup_node (cluster.cc:258-334), and the jobs a new cluster map starts (reconstruct_node
    and _shift_node_role, cluster.cc). *)
From Coq Require Import NArith ZArith List Bool String.
From Verif Require Import Base TextModel KeyResolverModel NamesModel ClusterModel NodeModel.
Import ListNotations.
Local Open Scope N_scope.
Local Open Scope list_scope.

(** ** The settings of the index server *)
Record settings := mkSettings { t_size : Z; t_hash : hashing; t_type : resolver; t_hint : Z; t_virtual : Z }.
(** flarei/ini_option.cc:172-211: what the options and the defaults say, the names as given *)
Record options := mkOptions { o_size : Z; o_hash : bytes; o_type : bytes; o_hint : Z; o_virtual : Z }.

(** zookeeper_coordinator.cc:207-246: the children of the meta node, and for each what zoo_get gave
    ([None]: it failed); [None]: the children could not be listed.  The result is that of the last call.
    A child without any data, for which zoo_get sets the length to -1, is not modelled; data over 512 bytes
    come cut. *)
Definition get_meta (children : option (list (bytes * option bytes))) : option (list (bytes * bytes)) :=
  match children with
  | None => None
  | Some l =>
      if match last (map snd l) (Some []) with Some _ => true | None => false end
      then Some (flat_map (fun kv => match snd kv with Some v => [(fst kv, v)] | None => [] end) l)
      else None
  end.
Definition var (vars : list (bytes * bytes)) (k : bytes) : option bytes :=
  match find (fun kv => beq (fst kv) k) vars with Some (_, v) => Some v | None => None end.
(** boost::lexical_cast<int> of any string: also a plus sign *)
Definition lex_string (w : bytes) : res Z :=
  match w with
  | 43 :: d => if is_unsigned d && (dec_val d <=? int_max) then Ok (Z.of_N (dec_val d)) else Err
  | _ => lex_int w
  end.
Definition int_var (vars : list (bytes * bytes)) (k : bytes) (d : Z) : res Z :=
  match var vars k with Some v => lex_string v | None => Ok d end.
(** key_resolver_modular.cc:40-46 with startup: [Undef] for sizes no array can have, and when building
    the table runs into undefined behaviour *)
Definition make_resolver (size hint virtual : Z) : res config :=
  if ((size <? 0) || (virtual <? 0))%Z then Undef else
  let c := mkConfig (Z.to_nat size) hint (Z.to_nat virtual) in
  if startup_ok c then Ok c else Undef.
(** flarei.cc:189-231, 259-279, cluster.cc:208-217.  With an unknown type the variable [t] is used
    uninitialized. *)
Definition index_settings (o : options) (vars : list (bytes * bytes)) : res settings :=
  let* hint := int_var vars (s2b "partition-modular-hint") (o_hint o) in
  let* virtual := int_var vars (s2b "partition-modular-virtual") (o_virtual o) in
  let* size := int_var vars (s2b "partition-size") (o_size o) in
  let type := match var vars (s2b "partition-type") with Some v => v | None => o_type o end in
  let hash := match var vars (s2b "key-hash-algorithm") with Some v => v | None => o_hash o end in
  match hashing_cast hash with
  | None | Some hash_bitshift | Some hash_adler32 | Some hash_murmur => Err
  | Some h =>
      match resolver_cast type with
      | None => Undef
      | Some t => let* _ := make_resolver size hint virtual in Ok (mkSettings size h t hint virtual)
      end
  end.
(** flarei.cc:184-188: what the coordinator has, over what the options say *)
Definition index_start (o : options) (children : option (list (bytes * option bytes))) : res settings :=
  match get_meta children with Some vars => index_settings o vars | None => Err end.

(** ** The request 'meta' *)
(** op_meta.cc:91-131 and op.cc:181-190 *)
Definition meta_answer (m : settings) : bytes :=
  snprintf (s2b "META partition-size " ++ decZ (t_size m)) ++ crlf
  ++ snprintf (s2b "META key-hash-algorithm " ++ hashing_name (t_hash m)) ++ crlf
  ++ snprintf (s2b "META partition-type " ++ resolver_name (t_type m)) ++ crlf
  ++ snprintf (s2b "META partition-modular-hint " ++ decZ (t_hint m)) ++ crlf
  ++ snprintf (s2b "META partition-modular-virtual " ++ decZ (t_virtual m)) ++ crlf
  ++ s2b "END" ++ crlf.
(** op_meta.cc:133-137 *)
Definition meta_request : bytes := snprintf (s2b "meta") ++ crlf.
(** flarei/op_parser_text_index.cc:85-86 with op_meta.cc:70-89: is the line that request? *)
Definition serve_meta (s : bytes) : res bytes :=
  let* (l, s) := get_line s in
  let* (c, p) := parse_command l in
  if negb (beq (c_word c) (s2b "meta")) then Err else line_end p s.

(** What the node has heard so far; the type is not initialized (cluster.cc:287-291). *)
Record heard := mkHeard { h_size : Z; h_hash : hashing; h_type : option resolver; h_hint : Z; h_virtual : Z }.
Definition heard_start : heard := mkHeard 1024 hash_simple None 0 4096.
(** op_meta.cc:165-171 and the others: no number is an error, one that is no int leaves the variable as it is *)
Definition meta_number (old : Z) (p : bytes) : res Z :=
  let* (w, _) := call_digit BUFSIZ p in
  match w with
  | [] => Err
  | _ => Ok match lex_int w with Ok z => z | _ => old end
  end.
(** op_meta.cc:151-223: one line.  Words after the value are ignored, and so is a line with an unknown key. *)
Definition meta_line (h : heard) (l : bytes) : res heard :=
  let* (w, p) := call_word BUFSIZ l in
  if negb (beq w (s2b "META")) then Err else
  let* (k, p) := call_word BUFSIZ p in
  if beq k [] then Err else
  if beq k (s2b "partition-size") then
    let* z := meta_number (h_size h) p in Ok (mkHeard z (h_hash h) (h_type h) (h_hint h) (h_virtual h))
  else if beq k (s2b "key-hash-algorithm") then
    let* (w, _) := call_word BUFSIZ p in
    match hashing_cast w with None => Err | Some a => Ok (mkHeard (h_size h) a (h_type h) (h_hint h) (h_virtual h)) end
  else if beq k (s2b "partition-type") then
    let* (w, _) := call_word BUFSIZ p in
    match resolver_cast w with None => Err | Some t => Ok (mkHeard (h_size h) (h_hash h) (Some t) (h_hint h) (h_virtual h)) end
  else if beq k (s2b "partition-modular-hint") then
    let* z := meta_number (h_hint h) p in Ok (mkHeard (h_size h) (h_hash h) (h_type h) z (h_virtual h))
  else if beq k (s2b "partition-modular-virtual") then
    let* z := meta_number (h_virtual h) p in Ok (mkHeard (h_size h) (h_hash h) (h_type h) (h_hint h) z)
  else Ok h.
(** op_meta.cc:139-228; each round reads a line *)
Fixpoint read_meta (fuel : nat) (h : heard) (s : bytes) : res (heard * bytes) :=
  match fuel with
  | O => Undef
  | S f =>
      let* (l, s) := get_line s in
      if beq l (s2b "END" ++ [10]) then Ok (h, s) else
      let* h := meta_line h l in
      read_meta f h s
  end.

(** ** The start of a node *)
(** storage.h:103-110 against [hashing] of NamesModel *)
Definition algorithm (h : hashing) : hash_algorithm :=
  match h with
  | hash_simple => ha_simple | hash_bitshift => ha_bitshift | hash_crc32 => ha_crc32
  | hash_adler32 => ha_adler32 | hash_murmur => ha_murmur | hash_jenkins => ha_jenkins
  end.
(** What a started node has: its copy of the map, the hash of keys and the key resolver. *)
Record started := mkStarted { d_copy : copy; d_hash : hash_algorithm; d_conf : config }.
(** cluster.cc:271-334: the node reads the answers to 'node add' and 'meta' from one connection *)
Definition start_node (near : bytes -> bool) (s : bytes) : res started :=
  let* (ns, s) := read_nodes (S (List.length s)) s in
  let* (h, s) := read_meta (S (List.length s)) heard_start s in
  match h_type h with
  | None => Undef
  | Some key_modular =>
      let* c := make_resolver (h_size h) (h_hint h) (h_virtual h) in
      let '(ok, t) := take_sync near fresh_copy ns 0 in
      if ok then Ok (mkStarted t (algorithm (h_hash h)) c) else Err
  end.
(** op_node_add.cc:118-141: the answer to a request that add_node answered with [r]; the map is read
    afterwards, from the state [s] *)
Definition add_answer (r : Z) (s : index) : bytes :=
  if (r <? 0)%Z then s2b "SERVER_ERROR failed to add node" ++ crlf else node_lines (map snd (i_map s)).

(** ** What a new map starts *)
(** handler_reconstruction with its source, the partition and the number of partitions it asks for;
    [GiveUp]: deactivate_node (cluster.cc:1593-1596) *)
Inductive job := Copy (source : bytes) (part : Z) (size : nat) (r : role) | GiveUp.
(** cluster.cc:1528-1604 for the node itself, with the tables of the new map; the count of master
    threads is in DumpModel *)
Definition shift_role (self : bytes) (t : copy) (old new : node) : list job :=
  let p := n_partition new in
  let main := List.length (c_parts t) in
  let both := (main + List.length (c_prep t))%nat in
  match n_role new with
  | Proxy => []
  | Master =>
      if role_eqb (n_role old) Proxy
      then map (fun kn => Copy (fst kn) p both Master)
             (filter (fun kn => negb (beq (fst kn) self) && role_eqb (n_role (snd kn)) Master && state_eqb (n_state (snd kn)) Active) (c_map t))
      else []
  | Slave =>
      if role_eqb (n_role old) Proxy
      then match pfind p (c_parts t) with
           | Some q => [Copy (p_master q) p main Slave]
           | None => match pfind p (c_prep t) with Some q => [Copy (p_master q) p both Slave] | None => [GiveUp] end
           end
      else []
  end.
(** cluster.cc:1117-1172: a node that was in the old map and has another role or partition now *)
Definition jobs (near : bytes -> bool) (self : bytes) (c : copy) (ns : list node) (version : N) : list job :=
  let '(ok, t) := take_sync near c ns version in
  match nfind self (c_map c), find (fun n => beq (to_node_key (n_name n) (n_port n)) self) ns with
  | Some old, Some new =>
      if ok && (negb (role_eqb (n_role new) (n_role old)) || negb (n_partition new =? n_partition old)%Z)
      then shift_role self t old new else []
  | _, _ => []
  end.
