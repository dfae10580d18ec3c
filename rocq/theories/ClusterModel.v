(** Model of the index server's cluster state machine: src/lib/cluster.cc and
    cluster.h (node map, partition tables, administrative and monitoring events).

    The node map and the partition tables are [std::map]s, here association lists in
    key order.  Thread handling, logging and the sending of the broadcast are left
    out; every function runs under the write locks of both maps, so it is one atomic
    step.  Signed overflow and iterating a vector while its owner changes give
    [Undef]. *)
From Coq Require Import NArith ZArith List Bool String.
From Verif Require Import Base TextModel.
Import ListNotations.
Local Open Scope N_scope.
Local Open Scope list_scope.

(** ** std::map *)
Section Map.
  Context {K V : Type} (eqb ltb : K -> K -> bool).
  Fixpoint mfind (k : K) (m : list (K * V)) : option V :=
    match m with
    | [] => None
    | (k', v) :: t => if eqb k k' then Some v else mfind k t
    end.
  (** [m[k] = v] *)
  Fixpoint mset (k : K) (v : V) (m : list (K * V)) : list (K * V) :=
    match m with
    | [] => [(k, v)]
    | (k', v') :: t =>
        if eqb k k' then (k, v) :: t
        else if ltb k k' then (k, v) :: m
        else (k', v') :: mset k v t
    end.
  Definition merase (k : K) (m : list (K * V)) : list (K * V) := filter (fun kv => negb (eqb k (fst kv))) m.
End Map.

(** std::string order: unsigned bytes, lexicographic. *)
Fixpoint blt (a b : bytes) : bool :=
  match a, b with
  | _, [] => false
  | [], _ => true
  | x :: a, y :: b => if x <? y then true else if y <? x then false else blt a b
  end.

(** ** Nodes: cluster.h:85-97, 112-120 *)
Inductive role := Master | Slave | Proxy.
Inductive nstate := Active | Prepare | Down | Ready.
Record node := mkNode {
  n_name : bytes; n_port : Z; n_role : role; n_state : nstate;
  n_partition : Z; n_balance : Z; n_thread : Z;
}.
Definition role_eqb (a b : role) : bool :=
  match a, b with Master, Master | Slave, Slave | Proxy, Proxy => true | _, _ => false end.
Definition state_eqb (a b : nstate) : bool :=
  match a, b with Active, Active | Prepare, Prepare | Down, Down | Ready, Ready => true | _, _ => false end.
Definition with_role (n : node) (r : role) : node := mkNode (n_name n) (n_port n) r (n_state n) (n_partition n) (n_balance n) (n_thread n).
Definition with_state (n : node) (s : nstate) : node := mkNode (n_name n) (n_port n) (n_role n) s (n_partition n) (n_balance n) (n_thread n).
Definition with_part (n : node) (p : Z) : node := mkNode (n_name n) (n_port n) (n_role n) (n_state n) p (n_balance n) (n_thread n).
Definition with_balance (n : node) (b : Z) : node := mkNode (n_name n) (n_port n) (n_role n) (n_state n) (n_partition n) b (n_thread n).
(** role proxy, partition -1, balance 0: cluster.cc:583-587, 732-734 *)
Definition demoted (n : node) : node := with_balance (with_part (with_role n Proxy) (-1)) 0.

(** cluster.h:298-301 *)
Definition to_node_key (name : bytes) (port : Z) : bytes := name ++ [58] ++ decZ port.

Definition node_map := list (bytes * node).
(** What [_node_map[k]] creates for a missing key: T() of an aggregate without
    constructor is all zero, and zero is master, active, partition 0. *)
Definition default_node : node := mkNode [] 0 Master Active 0 0 0.
Definition nfind : bytes -> node_map -> option node := mfind beq.
Definition nset : bytes -> node -> node_map -> node_map := mset beq blt.
Definition nerase : bytes -> node_map -> node_map := merase beq.
(** [_node_map[k]] as a value, as an access, and as the target of a change. *)
Definition nat_ (k : bytes) (m : node_map) : node := match nfind k m with Some n => n | None => default_node end.
Definition ntouch (k : bytes) (m : node_map) : node_map := nset k (nat_ k m) m.
Definition nupd (k : bytes) (f : node -> node) (m : node_map) : node_map := nset k (f (nat_ k m)) m.

(** ** Partition tables: cluster.h:136-147 *)
Record partition := mkPart {
  p_master : bytes; p_master_balance : Z; p_slaves : list (bytes * Z);
  p_balance : list bytes; p_prior : list bytes; p_index : list bytes;
}.
Definition empty_part : partition := mkPart [] 0 [] [] [] [].
Definition parts := list (Z * partition).
Definition pfind : Z -> parts -> option partition := mfind Z.eqb.
Definition pset : Z -> partition -> parts -> parts := mset Z.eqb Z.ltb.
Definition pat (p : Z) (ps : parts) : partition := match pfind p ps with Some x => x | None => empty_part end.
Definition ptouch (p : Z) (ps : parts) : parts := pset p (pat p ps) ps.

(** cluster.cc:1887-2067 [_reconstruct_node_partition].  [near name] is true when
    proxy-prior-netmask is set and the address of [name] is in the own network. *)
Section Reconstruct.
  Variable near : bytes -> bool.

  (** 1924-1930, 1939-1943 (with [prior]) and 1949-1955 *)
  Definition put_master (prior : bool) (k : bytes) (n : node) (p : partition) : partition :=
    let l := repeat k (Z.to_nat (n_balance n)) in
    mkPart k (n_balance n) (p_slaves p) (p_balance p ++ l)
      (if prior && near (n_name n) then p_prior p ++ l else p_prior p) (p_index p ++ [k]).
  (** 1983-1999 and 2001-2005 *)
  Definition put_slave (prior : bool) (k : bytes) (n : node) (p : partition) : partition :=
    let b := if state_eqb (n_state n) Active then n_balance n else 0%Z in
    let l := repeat k (Z.to_nat b) in
    mkPart (p_master p) (p_master_balance p) (p_slaves p ++ [(k, b)]) (p_balance p ++ l)
      (if prior && near (n_name n) then p_prior p ++ l else p_prior p) (p_index p ++ [k]).

  (** 1891-1962, first pass; the accumulator is (npm, nppm, r = 0) *)
  Definition master_step (acc : parts * parts * bool) (kn : bytes * node) : parts * parts * bool :=
    let '(npm, nppm, ok) := acc in
    let '(k, n) := kn in
    let p := n_partition n in
    if negb (role_eqb (n_role n) Master) then acc else
    if state_eqb (n_state n) Down && beq (p_master (pat p npm)) [] then
      (pset p (let q := pat p npm in mkPart [] 0 (p_slaves q) (p_balance q) (p_prior q) (p_index q)) npm, nppm, ok)
    else if (p <? 0)%Z then (npm, nppm, false)
    else match n_state n with
         | Active =>
             if negb (beq (p_master (pat p npm)) []) then (npm, nppm, false)
             else (pset p (put_master true k n (pat p npm)) npm, nppm, ok)
         | Prepare | Ready =>
             if negb (beq (p_master (pat p nppm)) []) then (npm, nppm, false)
             else (npm, pset p (put_master false k n (pat p nppm)) nppm, ok)
         | Down => acc
         end.
  (** 1964-2014, second pass *)
  Definition slave_step (acc : parts * parts * bool) (kn : bytes * node) : parts * parts * bool :=
    let '(npm, nppm, ok) := acc in
    let '(k, n) := kn in
    let p := n_partition n in
    if negb (role_eqb (n_role n) Slave) || state_eqb (n_state n) Down then acc else
    if (p <? 0)%Z then (npm, nppm, false) else
    match pfind p npm, pfind p nppm with
    | Some q, _ => (pset p (put_slave true k n q) npm, nppm, ok)
    | None, Some q => (npm, pset p (put_slave false k n q) nppm, ok)
    | None, None => (npm, nppm, false)
    end.
  (** 2016-2058: the tables are taken over only if this holds *)
  Definition max_key (ps : parts) : Z := fold_left (fun a kp => if (a <? fst kp)%Z then fst kp else a) ps 0%Z.
  Definition consistent (npm nppm : parts) : bool :=
    ((List.length npm =? 0)%nat || (max_key npm + 1 =? Z.of_nat (List.length npm))%Z)
    && (List.length nppm <=? 1)%nat
    && forallb (fun kp => (fst kp =? Z.of_nat (List.length npm))%Z) nppm.
  (** The new tables ([None]: the old ones stay) and whether 0 is returned. *)
  Definition reconstruct (m : node_map) : option (parts * parts) * bool :=
    let acc := fold_left master_step m ([], [], true) in
    let '(npm, nppm, ok) := fold_left slave_step m acc in
    if consistent npm nppm then (Some (npm, nppm), ok) else (None, false).
End Reconstruct.

(** ** The index server *)
(** What _save writes and _load reads: version, node map, next thread type. *)
Record saved := mkSaved { v_version : N; v_map : node_map; v_thread : Z }.
Record index := mkIndex {
  i_map : node_map; i_thread : Z; i_version : N; i_parts : parts; i_prep : parts;
  i_disk : option saved;   (* the coordinator's state, [None] while there is none *)
}.
Definition with_map (s : index) (m : node_map) : index := mkIndex m (i_thread s) (i_version s) (i_parts s) (i_prep s) (i_disk s).
Definition with_tables (s : index) (a b : parts) : index := mkIndex (i_map s) (i_thread s) (i_version s) a b (i_disk s).
(** cluster.cc:62-98 with cluster.h:161: default_thread_type *)
Definition fresh_index (d : option saved) : index := mkIndex [] 16 0 [] [] d.

(** How the coordinator behaves in one operation: begin_operation, restore_state,
    store_state.  A failed store leaves the old state, or none at all when unlink
    succeeds and rename fails (file_coordinator.cc:95-104). *)
Inductive save_outcome := SaveOk | SaveKept | SaveLost.
Record io := mkIo { f_begin : bool; f_load : bool; f_save : save_outcome }.
Definition io_ok : io := mkIo true true SaveOk.

(** cluster.cc:1774-1827 [_load] (the monitor threads aside) *)
Definition load (f : io) (s : index) : bool * index :=
  if negb (f_load f) then (false, s) else
  let s := match i_disk s with
           | Some d => mkIndex (v_map d) (v_thread d) (v_version d) (i_parts s) (i_prep s) (i_disk s)
           | None => s
           end in
  (forallb (fun kn => n_thread (snd kn) <? i_thread s)%Z (i_map s), s).
(** cluster.cc:1741-1768 [_save] *)
Definition save (f : io) (s : index) : bool * index :=
  let v := u64 (i_version s + 1) in
  let s' d := mkIndex (i_map s) (i_thread s) v (i_parts s) (i_prep s) d in
  match f_save f with
  | SaveOk => (true, s' (Some (mkSaved v (i_map s) (i_thread s))))
  | SaveKept => (false, s' (i_disk s))
  | SaveLost => (false, s' None)
  end.
(** _reconstruct_node_partition(false) with its result ignored; the index server
    has no prior netmask. *)
Definition refresh (s : index) : index :=
  match fst (reconstruct (fun _ => false) (i_map s)) with
  | Some (a, b) => with_tables s a b
  | None => s
  end.
Definition ret_of (r : bool * index) : res (Z * index) := Ok ((if fst r then 0 else -1)%Z, snd r).
(** The end and the beginning common to all operations. *)
Definition commit (f : io) (s : index) : res (Z * index) := ret_of (save f (refresh s)).
Definition locked (f : io) (s : index) (body : index -> res (Z * index)) : res (Z * index) :=
  if negb (f_begin f) then Ok ((-1)%Z, s) else
  let (ok, s) := load f s in
  if negb ok then Ok ((-1)%Z, s) else body s.
(** int addition *)
Definition add_int (a b : Z) : res Z :=
  if ((-2147483648 <=? a + b) && (a + b <=? 2147483647))%Z then Ok (a + b)%Z else Undef.

(** cluster.cc:404-489; the partition tables are not touched *)
Definition add_node (f : io) (s : index) (name : bytes) (port : Z) : res (Z * index) :=
  let k := to_node_key name port in
  locked f s (fun s =>
    match nfind k (i_map s) with
    | Some n => if state_eqb (n_state n) Down then ret_of (save f s) else Ok ((-1)%Z, s)
    | None =>
        let* t := add_int (i_thread s) 1 in
        ret_of (save f (mkIndex (nset k (mkNode name port Proxy Active (-1) 0 (i_thread s)) (i_map s)) t
                          (i_version s) (i_parts s) (i_prep s) (i_disk s)))
    end).

(** cluster.cc:546-556: the slave to promote, with (map, key, its balance, sum) *)
Fixpoint pick_slave (l : list (bytes * Z)) (m : node_map) (key : bytes) (prev sum : Z) : res (node_map * bytes * Z) :=
  match l with
  | [] => Ok (m, key, sum)
  | (k, b) :: t =>
      let m := ntouch k m in
      let* sum := add_int sum b in
      if state_eqb (n_state (nat_ k m)) Active && (beq key [] || (prev <? b)%Z)
      then pick_slave t m k b sum
      else pick_slave t m key prev sum
  end.
(** cluster.cc:572-578, 905-911: the slaves of a preparing master are released *)
Definition release (m : node_map) (l : list (bytes * Z)) : node_map :=
  fold_left (fun m kb => nupd (fst kb) (fun n => with_state (demoted n) Active) m) l m.

(** cluster.cc:494-611 (shutdown_mode only changes who is told) *)
Definition down_node (f : io) (s : index) (k : bytes) : res (Z * index) :=
  locked f s (fun s =>
    match nfind k (i_map s) with
    | None => Ok ((-1)%Z, s)
    | Some n =>
        if state_eqb (n_state n) Down then Ok (0%Z, s) else
        let p := n_partition n in
        let finish s preserve :=
          commit f (with_map s (nupd k (fun n => let n := with_state n Down in if preserve : bool then n else demoted n) (i_map s))) in
        if negb (role_eqb (n_role n) Master) then finish s false else
        match n_state n with
        | Active =>
            let s := with_tables s (ptouch p (i_parts s)) (i_prep s) in
            let slaves := p_slaves (pat p (i_parts s)) in
            if (List.length slaves =? 0)%nat then finish s true else
            let* (m, key, sum) := pick_slave slaves (i_map s) [] 0 0 in
            if beq key [] then finish (with_map s m) true else
            let m := nupd key (fun n => with_role n Master) m in
            if (sum =? 0)%Z then
              let* b := add_int (n_balance (nat_ key m)) 1 in
              finish (with_map s (nupd key (fun n => with_balance n b) m)) false
            else finish (with_map s m) false
        | _ =>
            let s := with_tables s (i_parts s) (ptouch p (i_prep s)) in
            let slaves := p_slaves (pat p (i_prep s)) in
            if mem k (map fst slaves) then Undef
            else finish (with_map s (release (i_map s) slaves)) false
        end
    end).

(** cluster.cc:625-679 *)
Definition ready_node (f : io) (s : index) (k : bytes) : res (Z * index) :=
  locked f s (fun s =>
    match nfind k (i_map s) with
    | None => Ok ((-1)%Z, s)
    | Some n =>
        if negb (state_eqb (n_state n) Prepare) then Ok ((-1)%Z, s)
        else commit f (with_map s (nupd k (fun n => with_state n Ready) (i_map s)))
    end).

(** cluster.cc:722-726, 810-818: another node that is not down has this partition *)
Definition other_live (k : bytes) (p : Z) (m : node_map) : bool :=
  existsb (fun kn => negb (beq (fst kn) k) && (n_partition (snd kn) =? p)%Z && negb (state_eqb (n_state (snd kn)) Down)) m.

(** cluster.cc:684-769.  Lines 722-730 demote the node at the first live node of
    its partition; the further rounds compare with partition -1 and repeat the same
    assignments. *)
Definition up_node (f : io) (s : index) (k : bytes) : res (Z * index) :=
  locked f s (fun s =>
    match nfind k (i_map s) with
    | None => Ok ((-1)%Z, s)
    | Some n =>
        let p := n_partition n in
        if state_eqb (n_state n) Active then Ok (0%Z, s)
        else if negb (role_eqb (n_role n) Slave) && state_eqb (n_state n) Prepare then Ok ((-1)%Z, s)
        else
          let finish s g := commit f (with_map s (nupd k (fun n => with_state (g n) Active) (i_map s))) in
          if state_eqb (n_state n) Ready || (role_eqb (n_role n) Slave && state_eqb (n_state n) Prepare) then
            let s := if state_eqb (n_state n) Ready && role_eqb (n_role n) Master
                     then with_tables s (i_parts s) (ptouch p (i_prep s)) else s in
            finish s (fun n => n)
          else if role_eqb (n_role n) Master then
            finish s (fun n => if other_live k p (i_map s) then demoted n else n)
          else finish s (fun n => with_part (with_role n Proxy) (-1))
    end).

(** cluster.cc:776-857 *)
Definition remove_node (f : io) (s : index) (k : bytes) : res (Z * index) :=
  locked f s (fun s =>
    match nfind k (i_map s) with
    | None => Ok ((-1)%Z, s)
    | Some n =>
        if negb (state_eqb (n_state n) Down) then Ok ((-1)%Z, s)
        else if role_eqb (n_role n) Master && negb (other_live k (n_partition n) (i_map s)) then Ok ((-1)%Z, s)
        else commit f (with_map s (nerase k (i_map s)))
    end).

(** cluster.cc:2079-2109 *)
Fixpoint sum_balance (k : bytes) (b p : Z) (m : node_map) (acc : Z) : res Z :=
  match m with
  | [] => Ok acc
  | (k', n) :: t =>
      if beq k' k then let* a := add_int acc b in sum_balance k b p t a
      else if (n_partition n =? p)%Z then let* a := add_int acc (n_balance n) in sum_balance k b p t a
      else sum_balance k b p t acc
  end.
Definition check_node_balance (k : bytes) (b : Z) (m : node_map) : res bool :=
  if (b <? 0)%Z then Ok false else
  match nfind k m with
  | None => Ok false
  | Some n =>
      if (n_partition n <? 0)%Z then Ok false
      else let* t := sum_balance k b (n_partition n) m 0 in Ok (negb (t =? 0)%Z)
  end.
(** cluster.cc:2116-2133: [Some preparing], or [None] for -1 *)
Definition check_node_partition (p : Z) (m : node_map) : option bool :=
  if (p <? 0)%Z then None else
  match find (fun kn => role_eqb (n_role (snd kn)) Master && negb (state_eqb (n_state (snd kn)) Down) && (n_partition (snd kn) =? p)%Z) m with
  | Some (_, n) => Some (negb (state_eqb (n_state n) Active))
  | None => None
  end.
(** cluster.cc:2140-2170 *)
Definition check_node_partition_for_new (p : Z) (ps : parts) (m : node_map) : option bool :=
  let size := Z.of_nat (List.length ps) in
  if (size <? p)%Z || (p <? 0)%Z then None
  else if (p =? size)%Z then
    if existsb (fun kn => role_eqb (n_role (snd kn)) Master && (n_partition (snd kn) =? p)%Z) m then None else Some true
  else
    if existsb (fun kn => role_eqb (n_role (snd kn)) Master && (n_partition (snd kn) =? p)%Z && negb (state_eqb (n_state (snd kn)) Down)) m
    then None else Some false.

(** cluster.cc:866-1055.  [step1] is the block for state prepare or ready, 897-953;
    [step2] the block for state active, 956-1031, on the node as [step1] left it.
    [false] is throw -1: the operation ends with the map as the step left it. *)
Definition role_step1 (s : index) (k : bytes) (n : node) (r : role) (b : Z) : res (bool * index) :=
  match n_role n, r with
  | Master, Master =>
      let* ok := check_node_balance k b (i_map s) in
      if ok then Ok (true, with_map s (nupd k (fun n => with_balance n b) (i_map s))) else Ok (false, s)
  | Master, Slave => Ok (false, s)
  | Master, Proxy =>
      let s := with_tables s (i_parts s) (ptouch (n_partition n) (i_prep s)) in
      let slaves := p_slaves (pat (n_partition n) (i_prep s)) in
      if mem k (map fst slaves) then Undef
      else Ok (true, with_map s (nupd k (fun n => with_state (demoted n) Active) (release (i_map s) slaves)))
  | Slave, Master => Ok (false, s)
  | Slave, Slave =>
      match check_node_partition (n_partition n) (i_map s) with
      | Some true =>
          let* ok := check_node_balance k b (i_map s) in
          if ok then Ok (true, with_map s (nupd k (fun n => with_balance n b) (i_map s))) else Ok (false, s)
      | _ => Ok (false, s)
      end
  | Slave, Proxy => Ok (true, with_map s (nupd k (fun n => with_state (demoted n) Active) (i_map s)))
  | Proxy, _ => Ok (true, with_map s (nupd k (fun n => with_state n Active) (i_map s)))
  end.
Definition role_step2 (s : index) (k : bytes) (n : node) (r : role) (b p : Z) : res (bool * index) :=
  match n_role n, r with
  | Master, Master | Slave, Slave =>
      let* ok := check_node_balance k b (i_map s) in
      if ok then Ok (true, with_map s (nupd k (fun n => with_balance n b) (i_map s))) else Ok (false, s)
  | Master, _ => Ok (false, s)
  | Slave, Master => Ok (false, s)
  | Slave, Proxy =>
      let* ok := check_node_balance k 0 (i_map s) in
      if ok then Ok (true, with_map s (nupd k (fun n => with_state (demoted n) Active) (i_map s))) else Ok (false, s)
  | Proxy, Master =>
      match check_node_partition_for_new p (i_parts s) (i_map s) with
      | None => Ok (false, s)
      | Some preparing =>
          if (b <=? 0)%Z then Ok (false, s) else
          let st := if preparing && negb (p =? 0)%Z then Prepare else Active in
          Ok (true, with_map s (nupd k (fun n => with_part (with_balance (with_state (with_role n Master) st) b) p) (i_map s)))
      end
  | Proxy, Slave =>
      match check_node_partition p (i_map s) with
      | None => Ok (false, s)
      | Some preparing =>
          let b := if preparing then Z.max b 0 else 0%Z in
          Ok (true, with_map s (nupd k (fun n => with_part (with_balance (with_state (with_role n Slave) Prepare) b) p) (i_map s)))
      end
  | Proxy, Proxy => Ok (true, s)
  end.
Definition set_node_role (f : io) (s : index) (k : bytes) (r : role) (b p : Z) : res (Z * index) :=
  locked f s (fun s =>
    match nfind k (i_map s) with
    | None => Ok ((-1)%Z, s)
    | Some n =>
        if state_eqb (n_state n) Down then Ok ((-1)%Z, s) else
        let* (go, s) := (match n_state n with
                         | Prepare | Ready => role_step1 s k n r b
                         | _ => Ok (true, s)
                         end) in
        if negb go then Ok ((-1)%Z, s) else
        let n := nat_ k (i_map s) in
        let* (go, s) := (if state_eqb (n_state n) Active then role_step2 s k n r b p else Ok (true, s)) in
        if negb go then Ok ((-1)%Z, s) else commit f s
    end).

(** cluster.cc:1060-1078 *)
Definition set_node_state (f : io) (s : index) (k : bytes) (st : nstate) : res (Z * index) :=
  match st with
  | Prepare => Ok ((-1)%Z, s)
  | Down => down_node f s k
  | Active => up_node f s k
  | Ready => ready_node f s k
  end.

(** cluster.cc:198-253 [startup_index] of a new process: [Err] when it gives up *)
Definition restart (f : io) (s : index) : res (Z * index) :=
  if negb (f_begin f) then Err else
  let (ok, s) := load f (fresh_index (i_disk s)) in
  if negb ok then Err else
  match reconstruct (fun _ => false) (i_map s) with
  | (Some (a, b), true) => Ok (0%Z, with_tables s a b)
  | _ => Err
  end.

(** The requests op_node_add, op_node_remove, op_node_role, op_node_state,
    op_shutdown, the monitor's events (handler_controller), and a restart. *)
Inductive event :=
| EAdd (name : bytes) (port : Z)
| ERemove (name : bytes) (port : Z)
| ERole (name : bytes) (port : Z) (r : role) (balance part : Z)
| EState (name : bytes) (port : Z) (st : nstate)
| ERestart.
Definition handle (f : io) (s : index) (e : event) : res (Z * index) :=
  match e with
  | EAdd h p => add_node f s h p
  | ERemove h p => remove_node f s (to_node_key h p)
  | ERole h p r b q => set_node_role f s (to_node_key h p) r b q
  | EState h p st => set_node_state f s (to_node_key h p) st
  | ERestart => restart f s
  end.
