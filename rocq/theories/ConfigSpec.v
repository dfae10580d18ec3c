(** What an operator expects of the settings of a node, in the words of the option list: which value an
    option has after a start, which after a reload, and what it means that the node goes by it. *)
From Coq Require Import List NArith ZArith Bool String.
From Verif Require Import Base ConfigModel.
Import ListNotations.
Local Open Scope string_scope.
Local Open Scope Z_scope.
Local Open Scope list_scope.

(** ** Values *)
Inductive kind := KInt | KU32 | KU64 | KText | KBool | KNone.
Definition kind_of (o : opt) : kind :=
  match o with
  | ConfigPath | PidPath | DataDir | IndexServers | IndexServerName | LogFacility | MysqlDb | MysqlTable
  | ReplicationType | ServerName | ServerSocket | StorageCompress | StorageType | ReplName | ReplMode
  | PartitionType | KeyHash | IndexDb => KText
  | Daemonize | MysqlReplication | StorageLarge => KNone
  | WatcherEnabled | ClusterRepl => KBool
  | MysqlId | StorageAp | StorageFp | PriorNetmask | MaxQueue | WatcherInterval | ThresholdWarn
  | ThresholdPingNg => KU32
  | StorageBucket => KU64
  | _ => KInt
  end.
Definition typed (k : kind) (v : value) : Prop :=
  match k, v with
  | KInt, Num z => - 2 ^ 31 <= z < 2 ^ 31
  | KU32, Num z => 0 <= z < 2 ^ 32
  | KU64, Num z => 0 <= z < 2 ^ 64
  | KText, Str _ => True
  | KBool, Flag _ => True
  | KNone, Flag b => b = true
  | _, _ => False
  end.
(** A number for which the setting makes sense: a limit that is not negative, at least one thread, a
    timeout whose milliseconds an int can hold. *)
Definition in_range (o : opt) (v : value) : Prop :=
  match o, v with
  | MaxConnection, Num z | ThreadPool, Num z => 0 <= z
  | NetReadTimeout, Num z => 0 <= z <= 2147483
  | ProxyConcurrency, Num z | ReplConcurrency, Num z => 0 < z
  | _, _ => True
  end.
Definition sensible (vm : vmap) : Prop :=
  forall o v, vm o = Some v -> typed (kind_of o) v /\ in_range o v.

(** ** The settings *)
(** The settings of a node that SIGHUP may change, besides the index servers. *)
Definition reloadable : list opt :=
  [ LogFacility; MaxConnection; NetReadTimeout; ReconInterval; ReconBwlimit; ReplicationType; ThreadPool;
    MaxQueue; NoreplyWindow; WatcherEnabled; WatcherInterval; ThresholdWarn; ThresholdPingNg;
    ClusterRepl; ReplName; ReplPort; ReplMode ].
(** The names of the index servers are not settings of their own: together they give a list. *)
Definition of_servers (o : opt) : Prop := o = IndexServers \/ o = IndexServerName \/ o = IndexServerPort.
(** The options of flared; the rest of [opt] belongs to flarei. *)
Definition of_node (o : opt) : Prop :=
  ~ In o [MonitorThreshold; MonitorInterval; MonitorReadTimeout; PartitionHint; PartitionVirtual;
          PartitionSize; PartitionType; KeyHash; IndexDb].

(** The value when neither the command line nor the file names the option. *)
Definition default (fqdn : bytes) (concurrency : value) (o : opt) : value :=
  match o with
  | BackLog => Num 30 | MaxConnection => Num 128 | MutexSlot => Num 64
  | MysqlPort => Num 12122 | MysqlId => Num 19790217 | MysqlDb | MysqlTable => Str (s2b "flare")
  | NoreplyWindow => Num 0 | NetReadTimeout => Num 600 | ProxyConcurrency => Num 2
  | ReconInterval | ReconBwlimit => Num 0 | ReplicationType => Str (s2b "async")
  | ServerName => Str fqdn | ServerPort => Num 12121 | StackSize => Num 128
  | StorageAp => Num 4 | StorageFp => Num 10 | StorageBucket => Num 131071 | StorageCache => Num 65536
  | StorageLmemb => Num 128 | StorageNmemb => Num 256 | StorageDfunit => Num 0
  | StorageType => Str (s2b "tch")
  | ThreadPool => Num 5 | PriorNetmask => Num 0 | MaxQueue => Num 0
  | WatcherInterval | ThresholdWarn | ThresholdPingNg => Num 0
  | ReplPort => Num 12121 | ReplConcurrency => concurrency | ReplMode => Str (s2b "duplicate")
  | Daemonize | MysqlReplication | StorageLarge | WatcherEnabled | ClusterRepl => Flag false
  | _ => Str []
  end.
(** The command line first, then the file, then the default. *)
Definition chosen (cli file : vmap) (default : opt -> value) (o : opt) : value :=
  match cli o with
  | Some v => v
  | None => match file o with Some v => v | None => default o end
  end.

(** What a reload should leave: the file's value where it names a reloadable option, and otherwise what
    was there. *)
Definition wanted (before : opt -> value) (file : vmap) (o : opt) : value :=
  if in_dec opt_eq_dec o reloadable then match file o with Some v => v | None => before o end
  else before o.

(** ** Going by a setting *)
(** What it means that a running node goes by the value [v] of the option [o].  An option that is read
    when the node starts is gone by when the node started with it. *)
Definition goes_by (l : live) (o : opt) (v : value) : Prop :=
  match o, v with
  | LogFacility, Str s => l_facility l = s
  | MaxConnection, Num z => forall threads, takes_connection l threads = (threads <? z)
  | NetReadTimeout, Num z => l_timeout l = 1000 * z
  | ReconInterval, Num z => l_interval l = z
  | ReconBwlimit, Num z => l_bwlimit l = z
  | ReplicationType, Str s =>
      s = s2b "async" /\ l_replication l = Async \/ s = s2b "sync" /\ l_replication l = Sync
  | ThreadPool, Num z => l_pool_req l = z /\ l_pool_other l = z
  | MaxQueue, Num z => l_queue l = z
  | NoreplyWindow, Num z => l_noreply l = z
  | WatcherEnabled, Flag b => l_watch l <> None <-> b = true
  | WatcherInterval, Num z => forall t, l_watch l = Some t -> t = z
  | ThresholdWarn, Num z => l_warn l = z
  | ThresholdPingNg, Num z => l_ping_ng l = z
  | ClusterRepl, Flag b => l_dest l <> None <-> b = true
  | ReplName, Str s => forall n p c, l_dest l = Some (n, p, c) -> n = s
  | ReplPort, Num z => forall n p c, l_dest l = Some (n, p, c) -> p = z
  | ReplConcurrency, Num z => l_start l ReplConcurrency = v /\ forall n p c, l_dest l = Some (n, p, c) -> c = z
  | ReplMode, Str s =>
      s = s2b "duplicate" /\ l_mode l = Duplicate \/ s = s2b "forward" /\ l_mode l = Forward
  | _, _ => ~ In o reloadable /\ l_start l o = v
  end.
(** The node goes by the settings that it shows. *)
Definition honest (l : live) : Prop :=
  (forall o, goes_by l o (field (l_ini l) o)) /\ l_servers l = servers (l_ini l).

(** ** The life of a node *)
(** One that was started and has had any number of reloads, accepted or not. *)
Definition read_ok (file : option vmap) : Prop :=
  match file with Some vm => sensible vm /\ vm ConfigPath = None /\ vm PidPath = None | None => True end.
Inductive lived (fqdn : bytes) (cli : vmap) : live -> Prop :=
| started file master l :
    sensible cli -> read_ok file -> node_start fqdn cli file master = TextModel.Ok l -> lived fqdn cli l
| reloaded l file master l' ok :
    lived fqdn cli l -> read_ok file -> reload l file master = TextModel.Ok (l', ok) -> lived fqdn cli l'.

(** Everything that governs a running node, apart from the limit on connections and from the dumps. *)
Definition same_force (l l' : live) : Prop :=
  l_facility l' = l_facility l /\ l_timeout l' = l_timeout l
  /\ l_servers l' = l_servers l /\ l_interval l' = l_interval l /\ l_bwlimit l' = l_bwlimit l
  /\ l_replication l' = l_replication l /\ l_pool_req l' = l_pool_req l /\ l_pool_other l' = l_pool_other l
  /\ l_queue l' = l_queue l /\ l_noreply l' = l_noreply l /\ l_watch l' = l_watch l
  /\ l_warn l' = l_warn l /\ l_ping_ng l' = l_ping_ng l /\ l_mode l' = l_mode l
  /\ l_dest l' = l_dest l.
Definition same_but_limit (l l' : live) : Prop :=
  same_force l l' /\ l_start l' = l_start l /\ l_dumps l' = l_dumps l.
Definition same_limit (l l' : live) : Prop := forall threads, takes_connection l' threads = takes_connection l threads.

(** A file that a reload can take. *)
Definition acceptable (file : vmap) : Prop :=
  (forall s, file ReplicationType = Some (Str s) -> s = s2b "async" \/ s = s2b "sync")
  /\ (forall s, file ReplMode = Some (Str s) -> s = s2b "duplicate" \/ s = s2b "forward")
  /\ index_servers file <> None.
(** Options that a node can start with. *)
Definition startable (vm : vmap) : Prop :=
  acceptable vm
  /\ (exists d, vm DataDir = Some (Str d) /\ d <> [])
  /\ (forall s, vm StorageCompress = Some (Str s) -> In s (map s2b [""; "deflate"; "bz2"; "tcbs"]))
  /\ (forall s, vm StorageType = Some (Str s) -> In s (map s2b ["tch"; "tcb"; "kch"])).
(** A command line that leaves everything that a reload may change to the file. *)
Definition silent_on (cli : vmap) : Prop := forall o, In o reloadable \/ of_servers o -> cli o = None.
(** A node with a configuration file. *)
Definition has_file (l : live) : Prop := field (l_ini l) ConfigPath <> Str [].
(** A master that duplicates to a destination it did not replicate to before the reload dumps to it. *)
Definition dumps_after (l l' : live) (master : bool) : list (bytes * Z) :=
  match l_dest l' with
  | Some (n, p, _) =>
      if (match l_mode l' with Duplicate => true | Forward => false end) && master
         && negb match l_dest l with Some (n0, p0, _) => beq n n0 && (p =? p0) | None => false end
      then (n, p) :: l_dumps l else l_dumps l
  | None => l_dumps l
  end.

(** ** The index server *)
Definition index_reloadable : list opt :=
  [LogFacility; MaxConnection; MonitorThreshold; MonitorInterval; MonitorReadTimeout; ThreadPool].
Definition index_goes_by (l : index_live) (o : opt) (v : value) : Prop :=
  match o, v with
  | LogFacility, Str s => x_facility l = s
  | MaxConnection, Num z => num (field (x_ini l) MaxConnection) = z
  | MonitorThreshold, Num z => fst (fst (x_monitor l)) = z /\ x_told l = x_monitor l
  | MonitorInterval, Num z => snd (fst (x_monitor l)) = z /\ x_told l = x_monitor l
  | MonitorReadTimeout, Num z => snd (x_monitor l) = z /\ x_told l = x_monitor l
  | ThreadPool, Num z => x_pool_req l = z
  | _, _ => ~ In o index_reloadable /\ x_start l o = v
  end.
(** The options an index server knows, and their values when nobody names them. *)
Definition of_index (o : opt) : Prop :=
  In o [ConfigPath; PidPath; Daemonize; DataDir; LogFacility; MaxConnection; MonitorThreshold; MonitorInterval;
        MonitorReadTimeout; PartitionHint; PartitionVirtual; KeyHash; PartitionSize; PartitionType; ServerName;
        ServerPort; ServerSocket; StackSize; ThreadPool; IndexDb].
Definition index_default (fqdn : bytes) (o : opt) : value :=
  match o with
  | MaxConnection => Num 128 | MonitorThreshold => Num 3 | MonitorInterval => Num 5
  | MonitorReadTimeout => Num 1000
  | PartitionHint => Num 1 | PartitionVirtual => Num 4096 | PartitionSize => Num 1024
  | PartitionType => Str (s2b "modular") | KeyHash => Str (s2b "simple")
  | ServerName => Str fqdn | ServerPort => Num 12120 | StackSize => Num 128 | ThreadPool => Num 5
  | Daemonize => Flag false
  | _ => Str []
  end.
(** Options that an index server can start with. *)
Definition index_startable (vm : vmap) : Prop :=
  (exists d, vm DataDir = Some (Str d) /\ d <> [])
  /\ (forall s, vm PartitionType = Some (Str s) -> s = s2b "modular")
  /\ (forall s, vm KeyHash = Some (Str s) ->
       In s (map s2b ["simple"; "bitshift"; "crc32"; "adler32"; "murmur"; "jenkins"])).
Inductive index_lived (fqdn : bytes) (cli : vmap) : index_live -> Prop :=
| index_started file l :
    sensible cli -> read_ok file -> index_start fqdn cli file = TextModel.Ok l -> index_lived fqdn cli l
| index_reloads l file l' ok :
    index_lived fqdn cli l -> read_ok file -> index_reloaded l file = TextModel.Ok (l', ok) ->
    index_lived fqdn cli l'.
Definition index_wanted (before : opt -> value) (file : vmap) (o : opt) : value :=
  if in_dec opt_eq_dec o index_reloadable then match file o with Some v => v | None => before o end
  else before o.

(** ** Listing index servers *)
(** name:port, separated by commas and blanks *)
Definition server_name_ok (n : bytes) : Prop :=
  n <> [] /\ Forall (fun c => c <> 44 /\ c <> 58 /\ c <> 32 /\ ~ (9 <= c <= 13))%N n.
Fixpoint listing (blanks : bytes) (l : list (bytes * N)) : bytes :=
  match l with
  | [] => []
  | [(n, p)] => n ++ s2b ":" ++ dec p
  | (n, p) :: l => n ++ s2b ":" ++ dec p ++ s2b "," ++ blanks ++ listing blanks l
  end.

Definition servers_ok (l : list (bytes * N)) : Prop :=
  Forall (fun s => server_name_ok (fst s) /\ (Z.of_N (snd s) < 2 ^ 31)%Z) l.

(** ** Reading the answer to 'show variables' *)
(** A client cuts the answer into lines, looks for the line that begins with the label, and takes what
    follows the colon and the blanks. *)
Fixpoint lines_go (cur : bytes) (s : bytes) : list bytes :=
  match s with
  | [] => []
  | c :: t =>
      match t with
      | d :: t' => if N.eqb c 13 && N.eqb d 10 then rev cur :: lines_go [] t' else lines_go (c :: cur) t
      | [] => []
      end
  end.
Definition lines_of (s : bytes) : list bytes := lines_go [] s.
Fixpoint strip_prefix (p s : bytes) : option bytes :=
  match p, s with
  | [], _ => Some s
  | x :: p, y :: s => if N.eqb x y then strip_prefix p s else None
  | _ :: _, [] => None
  end.
Fixpoint drop_blanks (s : bytes) : bytes :=
  match s with
  | c :: t => if N.eqb c 32 then drop_blanks t else s
  | [] => []
  end.
Fixpoint look_up (label : bytes) (lines : list bytes) : option bytes :=
  match lines with
  | [] => None
  | x :: l =>
      match strip_prefix (label ++ s2b ":") x with
      | Some v => Some (drop_blanks v)
      | None => look_up label l
      end
  end.
(** The label under which an option is shown.  The log facility and storage-fp are not shown. *)
Definition label_of (o : opt) : option string :=
  match o with
  | BackLog => Some "back_log" | ConfigPath => Some "config_path" | PidPath => Some "pid_path"
  | Daemonize => Some "daemonize" | DataDir => Some "data_dir" | MaxConnection => Some "max_connection"
  | MutexSlot => Some "mutex_slot" | MysqlReplication => Some "mysql_replication"
  | MysqlPort => Some "mysql_replication_port" | MysqlId => Some "mysql_replication_id"
  | MysqlDb => Some "mysql_replication_db" | MysqlTable => Some "mysql_replication_table"
  | NoreplyWindow => Some "noreply_window_limit" | NetReadTimeout => Some "net_read_timeout"
  | ProxyConcurrency => Some "proxy_concurrency" | ReconInterval => Some "reconstruction_interval"
  | ReconBwlimit => Some "reconstruction_bwlimit" | ReplicationType => Some "replication_type"
  | ServerName => Some "server_name" | ServerPort => Some "server_port"
  | ServerSocket => Some "server_socket" | StackSize => Some "stack_size" | StorageAp => Some "storage_ap"
  | StorageBucket => Some "storage_bucket_size" | StorageCache => Some "storage_cache_size"
  | StorageCompress => Some "storage_compress" | StorageLarge => Some "storage_large"
  | StorageLmemb => Some "storage_lmemb" | StorageNmemb => Some "storage_nmemb"
  | StorageDfunit => Some "storage_dfunit" | StorageType => Some "storage_type"
  | ThreadPool => Some "thread_pool_size" | PriorNetmask => Some "proxy_prior_netmask"
  | MaxQueue => Some "max_total_thread_queue" | WatcherEnabled => Some "time_watcher_enabled"
  | WatcherInterval => Some "time_watcher_polling_interval_msec"
  | ThresholdWarn => Some "storage_access_watch_threshold_warn_msec"
  | ThresholdPingNg => Some "storage_access_watch_threshold_ping_ng_msec"
  | ClusterRepl => Some "cluster_replication" | ReplName => Some "cluster_replication_server_name"
  | ReplPort => Some "cluster_replication_server_port"
  | ReplConcurrency => Some "cluster_replication_concurrency" | ReplMode => Some "cluster_replication_mode"
  | _ => None
  end.
(** How a value reads. *)
Definition reads (o : opt) (v : value) (s : bytes) : Prop :=
  match v with
  | Num z => s = decZ z
  | Str t => s = t
  | Flag b => s = if opt_eq_dec o ClusterRepl then s2b (if b then "1" else "0") else s2b (if b then "true" else "false")
  end.
(** A text that fits on the line: it has no NUL and no line end and does not begin with a blank. *)
Definition fits_line (v : value) : Prop :=
  match v with
  | Str t => Forall (fun c => c <> 0 /\ c <> 10 /\ c <> 13)%N t /\ (forall r, t <> 32%N :: r)
  | _ => True
  end.
Definition shows_well (i : ini) : Prop :=
  (forall o, fits_line (field i o))
  /\ Forall (fun s => server_name_ok (fst s) /\ Forall (fun c => c <> 0)%N (fst s)) (servers i).


(** ** The request to reload *)
(** The file as it was at the latest SIGHUP, and whether a SIGHUP came while a reload was running. *)
Fixpoint run_all (s : loop) (hs : list happening) : loop :=
  match hs with [] => s | h :: hs => run_all (happen s h) hs end.
Definition reloading (s : loop) : bool := match at_ s with Reload1 | Reload2 => true | _ => false end.
Fixpoint hup_version (s : loop) (latest : N) (hs : list happening) : N :=
  match hs with
  | [] => latest
  | h :: hs => hup_version (happen s h) (match h with Hup => file_now s | _ => latest end) hs
  end.
Fixpoint hup_in_reload (s : loop) (hs : list happening) : bool :=
  match hs with
  | [] => false
  | h :: hs => match h with Hup => reloading s | _ => false end || hup_in_reload (happen s h) hs
  end.
