(** Vocabulary of the cluster properties. *)
From Coq Require Import NArith ZArith List Bool.
From Verif Require Import Base TextModel ClusterModel.
Import ListNotations.
Local Open Scope Z_scope.

(** ** Node maps *)
(** Keys in strictly increasing order, as std::map keeps them. *)
Inductive ordered {K V} (lt : K -> K -> bool) : list (K * V) -> Prop :=
| ord_nil : ordered lt []
| ord_cons k v m : (forall k', In k' (map fst m) -> lt k k' = true) -> ordered lt m -> ordered lt ((k, v) :: m).

(** [k] is the node [n] of the map. *)
Notation "m ∋ k ↦ n" := (nfind k m = Some n) (at level 70, k at level 1, n at level 1).

Definition live (n : node) : Prop := n_state n <> Down.
(** C25 *)
Definition one_master (m : node_map) : Prop :=
  forall k1 n1 k2 n2, nfind k1 m = Some n1 -> nfind k2 m = Some n2 ->
    n_role n1 = Master -> n_role n2 = Master -> live n1 -> live n2 ->
    n_partition n1 = n_partition n2 -> k1 = k2.

(** ** The partition tables a node map stands for *)
Definition is_slave (p : Z) (n : node) : bool :=
  role_eqb (n_role n) Slave && negb (state_eqb (n_state n) Down) && (n_partition n =? p) && (0 <=? p).
(** A live node with a negative partition belongs to none. *)
Definition is_master (sts : list nstate) (p : Z) (n : node) : bool :=
  role_eqb (n_role n) Master && existsb (state_eqb (n_state n)) sts && (n_partition n =? p)
  && (state_eqb (n_state n) Down || (0 <=? p)).
(** The slaves of a partition with the share of reads they get: none while preparing. *)
Definition slaves_of (p : Z) (m : node_map) : list (bytes * node) := filter (fun kn => is_slave p (snd kn)) m.
Definition share (n : node) : Z := if state_eqb (n_state n) Active then n_balance n else 0.
Definition master_of (sts : list nstate) (p : Z) (m : node_map) : option (bytes * node) :=
  find (fun kn => is_master sts p (snd kn)) m.
(** Every node as often as its balance says. *)
Definition shares (l : list (bytes * Z)) : list bytes := flat_map (fun kb => repeat (fst kb) (Z.to_nat (snd kb))) l.
Definition table (near : bytes -> bool) (mn : option (bytes * node)) (sl : list (bytes * node)) : partition :=
  let ms := match mn with Some (k, n) => [(k, n, n_balance n)] | None => [] end in
  let ss := map (fun kn => (kn, share (snd kn))) sl in
  let key (x : bytes * node * Z) := (fst (fst x), snd x) in
  mkPart (match mn with Some (k, _) => k | None => [] end)
         (match mn with Some (_, n) => n_balance n | None => 0 end)
         (map key ss)
         (shares (map key (ms ++ ss)))
         (shares (map key (filter (fun x => near (n_name (snd (fst x)))) (ms ++ ss))))
         (map (fun x => fst (fst x)) (ms ++ ss)).
(** The table of partition [p], if the map has that partition; and the one of a
    partition being prepared. *)
Definition main_table (near : bytes -> bool) (p : Z) (m : node_map) : option partition :=
  if existsb (fun kn => is_master [Active; Down] p (snd kn)) m
  then Some (table near (master_of [Active] p m) (slaves_of p m)) else None.
Definition prep_table (p : Z) (m : node_map) : option partition :=
  match master_of [Prepare; Ready] p m with
  | Some kn => Some (table (fun _ => false) (Some kn)
                       (match main_table (fun _ => false) p m with Some _ => [] | None => slaves_of p m end))
  | None => None
  end.

(** No node has the empty key (to_node_key never gives it). *)
Definition named (m : node_map) : Prop := forall k, In k (map fst m) -> k <> [].
(** The table has the partitions 0..n-1. *)
Definition partitions_are (ps : parts) (n : Z) : Prop := forall p, pfind p ps <> None <-> 0 <= p < n.
(** The map describes [n] partitions and at most one being prepared as the next. *)
Definition contiguous (m : node_map) (n : Z) : Prop :=
  0 <= n /\ (forall p, main_table (fun _ => false) p m <> None <-> 0 <= p < n) /\ (forall p, prep_table p m <> None -> p = n).
(** The shares of the slaves of a partition, added up. *)
Definition read_shares (p : Z) (m : node_map) : Z := fold_right (fun kn a => share (snd kn) + a) 0 (slaves_of p m).

(** ** Histories of the index server *)
(** [e] would bring up or remove the preserved (down) master of a partition in
    which some node is live, but none of them is a master. *)
Definition target (e : event) : option bytes :=
  match e with
  | ERemove h p | EState h p Active => Some (to_node_key h p)
  | _ => None
  end.
Definition abandons (s : index) (e : event) : Prop :=
  exists k n, target e = Some k /\ nfind k (i_map s) = Some n /\ n_role n = Master /\ n_state n = Down /\
    (exists k' n', k' <> k /\ nfind k' (i_map s) = Some n' /\ live n' /\ n_partition n' = n_partition n) /\
    (forall k' n', nfind k' (i_map s) = Some n' -> live n' -> n_role n' = Master -> n_partition n' <> n_partition n).

(** Any sequence of requests and monitoring events, answered with 0 or -1, with
    failing begin/load but no failing store, and without such an event. *)
Inductive history : index -> Prop :=
| history_start : history (fresh_index None)
| history_step f s e r s' :
    history s -> f_save f = SaveOk -> ~ abandons s e -> handle f s e = Ok (r, s') -> history s'.
(** The same without the restriction on events. *)
Inductive any_history : index -> Prop :=
| any_start : any_history (fresh_index None)
| any_step f s e r s' : any_history s -> f_save f = SaveOk -> handle f s e = Ok (r, s') -> any_history s'.

(** ** What the events do to the node map *)
(** The nodes other than those of [ks] are the same. *)
Definition same_except (ks : list bytes) (m m' : node_map) : Prop :=
  forall x, ~ In x ks -> nfind x m' = nfind x m.
Definition active_slave (m : node_map) (p : Z) (k : bytes) (n : node) : Prop :=
  nfind k m = Some n /\ n_role n = Slave /\ n_state n = Active /\ n_partition n = p.
(** The slave to be promoted: active, of the largest balance, the first of those. *)
Definition successor (m : node_map) (p : Z) (w : bytes) (nw : node) : Prop :=
  active_slave m p w nw /\
  forall x nx, active_slave m p x nx -> x <> w ->
    n_balance nx < n_balance nw \/ (n_balance nx = n_balance nw /\ blt w x = true).
Definition promoted (n : node) (b : Z) : node := with_balance (with_role n Master) b.
Definition out_of_service (n : node) : node := demoted (with_state n Down).
(** [k], which was [n], has gone down. *)
Definition went_down (m : node_map) (k : bytes) (n : node) (m' : node_map) : Prop :=
  match n_role n, n_state n with
  | Master, Active =>
      (** nobody can take over: the partition is kept for the node *)
      ((forall x nx, ~ active_slave m (n_partition n) x nx) /\
       nfind k m' = Some (with_state n Down) /\ same_except [k] m m') \/
      (exists w nw, successor m (n_partition n) w nw /\ w <> k /\
         nfind k m' = Some (out_of_service n) /\
         nfind w m' = Some (promoted nw
           (if forallb (fun kn => n_balance (snd kn) =? 0) (filter (fun kn => state_eqb (n_state (snd kn)) Active) (slaves_of (n_partition n) m))
            then 1 else n_balance nw)) /\
         same_except [k; w] m m')
  | Master, _ =>
      (** a partition being prepared is given up, its slaves are free again *)
      nfind k m' = Some (out_of_service n) /\
      forall x, x <> k -> nfind x m' =
        match nfind x m with
        | Some nx => if role_eqb (n_role nx) Slave && (n_partition nx =? n_partition n)
                     then Some (with_state (demoted nx) Active) else Some nx
        | None => None
        end
  | _, _ => nfind k m' = Some (out_of_service n) /\ same_except [k] m m'
  end.
(** [k], which was [n], is up. *)
Definition others_live (m : node_map) (k : bytes) (p : Z) : Prop :=
  exists k' n', k' <> k /\ nfind k' m = Some n' /\ live n' /\ n_partition n' = p.
Definition came_up (m : node_map) (k : bytes) (n : node) (m' : node_map) : Prop :=
  same_except [k] m m' /\
  match n_role n, n_state n with
  | Master, Down => (others_live m k (n_partition n) /\ nfind k m' = Some (with_state (demoted n) Active)) \/
                    (~ others_live m k (n_partition n) /\ nfind k m' = Some (with_state n Active))
  | Slave, (Prepare | Ready) | Master, Ready | Proxy, Down => nfind k m' = Some (with_state n Active)
  | _, _ => False
  end.
(** [k], which was [n], has got a role, balance and partition. *)
Definition role_set (m : node_map) (k : bytes) (n : node) (r : role) (b p : Z) (m' : node_map) : Prop :=
  match n_role n, n_state n, r with
  | Master, _, Master | Slave, _, Slave => 0 <= b /\ nfind k m' = Some (with_balance n b) /\ same_except [k] m m'
  | Slave, _, Proxy => nfind k m' = Some (with_state (demoted n) Active) /\ same_except [k] m m'
  | Master, (Prepare | Ready), Proxy =>
      nfind k m' = Some (with_state (demoted n) Active) /\
      forall x, x <> k -> nfind x m' =
        match nfind x m with
        | Some nx => if role_eqb (n_role nx) Slave && (n_partition nx =? n_partition n)
                     then Some (with_state (demoted nx) Active) else Some nx
        | None => None
        end
  | Proxy, _, Master =>
      (exists st, 0 < b /\ 0 <= p /\ (st = Prepare \/ st = Active) /\ nfind k m' = Some (with_part (with_balance (with_state (with_role n Master) st) b) p) /\
        (forall x nx, nfind x m = Some nx -> n_role nx = Master -> n_partition nx = p -> n_state nx = Down)) /\ same_except [k] m m'
  | Proxy, _, Slave =>
      (exists b', 0 <= b' /\ nfind k m' = Some (with_part (with_balance (with_state (with_role n Slave) Prepare) b') p) /\
        (exists x nx, nfind x m = Some nx /\ n_role nx = Master /\ live nx /\ n_partition nx = p)) /\ same_except [k] m m'
  | Proxy, _, Proxy => m' = m
  | _, _, _ => False
  end.
