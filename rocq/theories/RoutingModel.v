(** Model of the routing of requests between the nodes of a cluster:
    src/lib/cluster.cc (pre_proxy_read, pre_proxy_write, post_proxy_write,
    _determine_partition).  The listeners of cluster replication (lines 1306-1317,
    1367-1379, 1424-1432) are not modelled here: a node without it has none that
    answers anything but "continue". *)
From Coq Require Import NArith ZArith List Bool.
From Verif Require Import Base TextModel KeyResolverModel ClusterModel NodeModel.
Import ListNotations.
Local Open Scope N_scope.
Local Open Scope list_scope.

Section Routing.
  (** The key resolver, the same on all nodes (they get its parameters from the index
      server). *)
  Variable c : config.

  (** cluster.cc:2172-2210 [_determine_partition] for a key with hash [h].  [None]: -1
      is returned. *)
  Definition determine (t : copy) (h : Z) (check_prepare : bool) : res (option (partition * bool)) :=
    if Nat.eqb (List.length (c_parts t)) 0 then Ok None else
    let size := (List.length (c_parts t) + if check_prepare then List.length (c_prep t) else 0)%nat in
    match resolve c h size with
    | None => Undef
    | Some n =>
        match (if check_prepare then pfind (Z.of_nat n) (c_prep t) else None) with
        | Some p => Ok (Some (p, true))
        | None => Ok (option_map (fun p => (p, false)) (pfind (Z.of_nat n) (c_parts t)))
        end
    end.
  (** The second call, whose return value is not looked at (1388, 1443): the partition
      stays as it was constructed and is_prepare is false. *)
  Definition determine_prepare (t : copy) (h : Z) : res (partition * bool) :=
    let* d := determine t h true in Ok (match d with Some x => x | None => (empty_part, false) end).

  (** What a node does with a request. *)
  Inductive action := Here | Forward (k : bytes) | NoPartition | NoProxy.
  (** cluster.cc:1606-1612 with 2228-2235: a request for a node that is not in the map
      is refused.  (Other failures of _enqueue are failures of the network as far as the
      routing is concerned.) *)
  Definition forward (t : copy) (k : bytes) : action :=
    match nfind k (c_map t) with Some _ => Forward k | None => NoProxy end.
  Definition mem (k : bytes) (l : list bytes) : bool := existsb (beq k) l.

  (** cluster.cc:1365-1418 [pre_proxy_write] of the node [self] *)
  Definition pre_write (t : copy) (self : bytes) (h : Z) (proxied : bool) : res action :=
    let* d := determine t h false in
    match d with
    | None => Ok NoPartition
    | Some (p, _) =>
        let* (pp, preparing) := determine_prepare t h in
        if beq (p_master p) self || (proxied && preparing && beq (p_master pp) self) then Ok Here
        else if proxied && (mem self (p_index p) || (preparing && mem self (p_index pp))) then Ok Here
        else Ok (forward t (p_master p))
    end.
  (** cluster.cc:1423-1494 [post_proxy_write]: the nodes the write is sent to *)
  Definition post_write (t : copy) (self : bytes) (h : Z) (trail : list bytes) (proxied : bool) : res (list bytes) :=
    let* d := determine t h false in
    match d with
    | None => Ok []
    | Some (p, _) =>
        let* (pp, preparing) := determine_prepare t h in
        if negb (beq (p_master p) self || (proxied && preparing && beq (p_master pp) self)) then Ok [] else
        if (2 <=? List.length (filter (beq self) trail))%nat then Ok [] else
        let p_tmp := if preparing && beq (p_master pp) self then pp else p in
        let known := filter (fun k => match nfind k (c_map t) with Some _ => true | None => false end) in
        Ok (known (map fst (p_slaves p_tmp)) ++ (if preparing && beq (p_master p) self then known [p_master pp] else []))
    end.
  (** cluster.cc:1305-1358 [pre_proxy_read]; [r] is what rand() returns *)
  Definition pre_read (t : copy) (self : bytes) (h : Z) (r : nat) : res action :=
    let* d := determine t h false in
    match d with
    | None => Ok NoPartition
    | Some (p, _) =>
        if beq (p_master p) self then Ok Here
        else if existsb (fun kb => (0 <? snd kb)%Z && beq (fst kb) self) (p_slaves p) then Ok Here
        else match p_balance p with
        | [] => Ok NoPartition
        | b0 :: bs =>
            let l := match p_prior p with [] => b0 :: bs | q :: qs => q :: qs end in
            Ok (forward t (nth (r mod List.length l)%nat l []))
        end
    end.

  (** ** A cluster of nodes, each with its own copy of the map *)
  Variable tab : bytes -> copy.
  (** A write for a key with hash [h] on its way. *)
  Record req := mkReq { r_node : bytes; r_trail : list bytes; r_proxied : bool }.
  Definition client (x : bytes) : req := mkReq x [] false.
  (** op_set.cc _run_server and the like: a node executes the write, in which case it
      sends it on as [post_write] says (we assume that the storage accepts it), or
      forwards it, or gives up.  The node executing it, and the requests it makes:
      queue_proxy_write sends the trail with this node added. *)
  Definition serve (h : Z) (q : req) : res (list bytes * list req) :=
    let x := r_node q in
    let next k := mkReq k (r_trail q ++ [x]) true in
    let* a := pre_write (tab x) x h (r_proxied q) in
    match a with
    | Here =>
        let* l := post_write (tab x) x h (r_trail q) (r_proxied q) in
        Ok ([x], map next l)
    | Forward k => Ok ([], [next k])
    | NoPartition | NoProxy => Ok ([], [])
    end.
End Routing.
