(** The configuration of the two programs: what load() makes of the command line and the config file,
    what reload() makes of the file when SIGHUP arrives, what startup() and reload() then put in force,
    what 'show variables' answers, and the loop that notices the signal.

    boost::program_options is outside the model: it either refuses a source (unknown name, name given
    twice, text that is not a value of the option's type) or gives a map from names to typed values.
    mysql replication is taken as compiled in (ENABLE_MYSQL_REPLICATION). *)
From Coq Require Import List NArith ZArith Bool String.
From Verif Require Import Base TextModel.
Import ListNotations.
Local Open Scope string_scope.
Local Open Scope Z_scope.
Local Open Scope list_scope.

(** ** Options *)
(** flared/ini_option.cc:594-660 and flarei/ini_option.cc:348-384: one constructor per name.  ConfigPath
    and PidPath are the command line's -f and -p *)
Inductive opt :=
| ConfigPath | PidPath | BackLog | Daemonize | DataDir | IndexServers | IndexServerName | IndexServerPort
| LogFacility | MaxConnection | MutexSlot
| MysqlReplication | MysqlPort | MysqlId | MysqlDb | MysqlTable
| NoreplyWindow | NetReadTimeout | ProxyConcurrency | ReconInterval | ReconBwlimit | ReplicationType
| ServerName | ServerPort | ServerSocket | StackSize
| StorageAp | StorageFp | StorageBucket | StorageCache | StorageCompress | StorageLarge | StorageLmemb
| StorageNmemb | StorageDfunit | StorageType
| ThreadPool | PriorNetmask | MaxQueue | WatcherEnabled | WatcherInterval | ThresholdWarn | ThresholdPingNg
| ClusterRepl | ReplName | ReplPort | ReplConcurrency | ReplMode
| MonitorThreshold | MonitorInterval | MonitorReadTimeout
| PartitionHint | PartitionVirtual | PartitionSize | PartitionType | KeyHash | IndexDb.

Definition opt_eq_dec (a b : opt) : {a = b} + {a <> b}.
Proof. decide equality. Defined.

(** the types of ini_option.h:46-98: int, uint32_t and uint64_t as numbers, string, bool *)
Inductive value := Num (z : Z) | Str (s : bytes) | Flag (b : bool).

(** program_options::variables_map: count(name) and [name].as<T>() *)
Definition vmap := opt -> option value.
Definition no_options : vmap := fun _ => None.
(** variables_map after two store() calls: the first value of a name stays *)
Definition merge (first second : vmap) : vmap :=
  fun o => match first o with Some v => Some v | None => second o end.

(** the members of ini_option: one per option, and _index_servers *)
Definition fields := opt -> value.
Record ini := mkIni { field : fields; servers : list (bytes * Z) }.
Definition upd (f : fields) (o : opt) (v : value) : fields :=
  fun o' => if opt_eq_dec o o' then v else f o'.

(** what assigning the option's value to its member stores: _max_connection is a uint32_t that gets an
    int (ini_option.cc:200, 451; ini_option.h:57); the options without a value set a bool *)
Definition assigned (o : opt) (v : value) : value :=
  match o, v with
  | MaxConnection, Num z => Num (z mod 2 ^ 32)
  | Daemonize, _ | StorageLarge, _ | MysqlReplication, _ => Flag true
  | _, _ => v
  end.

(** ** The list of index servers *)
(** \s, \d and [^,:\s] of the pattern in ini_option.cc:666 *)
Definition is_blank (c : N) : bool := (N.eqb c 32 || (N.leb 9 c && N.leb c 13))%bool.
Definition is_name_char (c : N) : bool := negb (N.eqb c 44 || N.eqb c 58 || is_blank c).

(** ini_option.cc:666: the pattern ",?\s*([^,:\s]+):(\d+)" matched at the front of [s]; the name and the
    digits are taken as long as possible, and no shorter choice could match where this one does not *)
Definition match_here (s : bytes) : option (bytes * bytes * bytes) :=
  let s := match s with c :: t => if N.eqb c 44 then t else s | [] => s end in
  let s := snd (span is_blank s) in
  let '(name, s) := span is_name_char s in
  match name, s with
  | _ :: _, c :: t =>
      if N.eqb c 58 then
        match span is_digit t with
        | ([], _) => None
        | (digits, t) => Some (name, digits, t)
        end
      else None
  | _, _ => None
  end.

(** boost::regex_search: the match that starts furthest left *)
Fixpoint search (s : bytes) : option (bytes * bytes * bytes) :=
  match match_here s with
  | Some m => Some m
  | None => match s with [] => None | _ :: t => search t end
  end.

(** ini_option.cc:673-685: the loop; lexical_cast<int> refuses what an int cannot hold.  [fuel] bounds
    the number of matches by the length of the text *)
Fixpoint scan (fuel : nat) (s : bytes) : option (list (bytes * Z)) :=
  match fuel with
  | O => Some []
  | S fuel =>
      match search s with
      | None => Some []
      | Some (name, digits, t) =>
          match lex_i32 digits with
          | Ok port => match scan fuel t with Some l => Some ((name, port) :: l) | None => None end
          | _ => None
          end
      end
  end.

(** ini_option.cc:663-716 with ini_option.h:101: [None] is -1 *)
Definition default_index_server_port : Z := 12120.
Definition index_servers (vm : vmap) : option (list (bytes * Z)) :=
  match vm IndexServers with
  | Some (Str s) =>
      match scan (S (List.length s)) s with
      | Some (e :: l) =>
          match vm IndexServerName, vm IndexServerPort with
          | None, None => Some (e :: l)
          | _, _ => None
          end
      | _ => None
      end
  | Some _ => None
  | None =>
      let name := match vm IndexServerName with Some (Str n) => n | _ => [] end in
      let port := match vm IndexServerPort with Some (Num p) => p | _ => default_index_server_port end in
      match name with
      | [] => None
      | _ => Some [(name, port)]
      end
  end.

(** ** load() and reload() *)
(** One entry per statement of the two functions, in their order. *)
Inductive step :=
| Take (o : opt)                              (* if (count(o)) { member = value; } *)
| Checked (o : opt) (ok : bytes -> bool)      (* the same, and throw -1 when the value is not one of the known *)
| Else (o : opt) (d : fields -> value)        (* the else branch of such an if *)
| Required (o : opt)                          (* if (member.empty()) throw -1; *)
| Servers.                                    (* if (_process_index_servers() < 0) throw -1; *)

(** assigning to a member when the option is there, and leaving the member alone when it is not *)
Definition taken (vm : vmap) (o : opt) (f : fields) : fields :=
  upd f o match vm o with Some v => assigned o v | None => f o end.
Definition run_step (vm : vmap) (i : ini) (s : step) : option ini :=
  match s with
  | Take o => Some (mkIni (taken vm o (field i)) (servers i))
  | Checked o ok =>
      match vm o with
      | Some (Str v) => if ok v then Some (mkIni (taken vm o (field i)) (servers i)) else None
      | Some _ => None
      | None => Some (mkIni (taken vm o (field i)) (servers i))
      end
  | Else o d =>
      Some (mkIni (upd (field i) o match vm o with Some _ => field i o | None => d (field i) end) (servers i))
  | Required o => match field i o with Str [] => None | _ => Some i end
  | Servers => match index_servers vm with Some l => Some (mkIni (field i) l) | None => None end
  end.

(** the members as they are when the function returns, and whether it returned 0 *)
Fixpoint run_steps (vm : vmap) (i : ini) (l : list step) : ini * bool :=
  match l with
  | [] => (i, true)
  | s :: l => match run_step vm i s with Some i => run_steps vm i l | None => (i, false) end
  end.

Definition one_of (l : list string) (s : bytes) : bool := existsb (fun x => beq s (s2b x)) l.
(** cluster.h:317-326, cluster_replication.h:82-91, storage.h's compress_cast and type_cast *)
Definition known_replication : bytes -> bool := one_of ["async"; "sync"].
Definition known_mode : bytes -> bool := one_of ["duplicate"; "forward"].
Definition known_compress : bytes -> bool := one_of [""; "deflate"; "bz2"; "tcbs"].
Definition known_type : bytes -> bool := one_of ["tch"; "tcb"; "kch"].

Definition text (s : string) : fields -> value := fun _ => Str (s2b s).

(** flared/ini_option.cc:40-90 with ini_option.h:100-130 *)
Definition node_defaults : fields := fun o =>
  match o with
  | BackLog => Num 30 | MaxConnection => Num 128 | MutexSlot => Num 64
  | MysqlPort => Num 12122 | MysqlId => Num 19790217
  | NoreplyWindow => Num 0 | NetReadTimeout => Num 600 | ProxyConcurrency => Num 2
  | ReconInterval => Num 0 | ReconBwlimit => Num 0 | ServerPort => Num 12121 | StackSize => Num 128
  | StorageAp => Num 4 | StorageFp => Num 10 | StorageBucket => Num 131071 | StorageCache => Num 65536
  | StorageLmemb => Num 128 | StorageNmemb => Num 256 | StorageDfunit => Num 0
  | ThreadPool => Num 5 | PriorNetmask => Num 0 | MaxQueue => Num 0
  | WatcherInterval => Num 0 | ThresholdWarn => Num 0 | ThresholdPingNg => Num 0
  | ReplPort => Num 12121 | ReplConcurrency => Num 2
  | Daemonize | MysqlReplication | StorageLarge | WatcherEnabled | ClusterRepl => Flag false
  | _ => Str []
  end.

(** flared/ini_option.cc:147-152 and 177-396; [fqdn] is what util::get_fqdn found *)
Definition node_load_steps (fqdn : bytes) : list step :=
  [ Take ConfigPath; Take PidPath; Take BackLog; Take Daemonize; Take DataDir; Required DataDir; Servers;
    Take LogFacility; Take MaxConnection; Take MutexSlot;
    Take MysqlReplication; Take MysqlPort; Take MysqlId;
    Take MysqlDb; Else MysqlDb (text "flare"); Take MysqlTable; Else MysqlTable (text "flare");
    Take NoreplyWindow; Take NetReadTimeout; Take ProxyConcurrency; Take ReconInterval; Take ReconBwlimit;
    Checked ReplicationType known_replication; Else ReplicationType (text "async");
    Take ServerName; Else ServerName (fun _ => Str fqdn); Take ServerPort; Take ServerSocket; Take StackSize;
    Take StorageAp; Take StorageFp; Take StorageBucket; Take StorageCache;
    Checked StorageCompress known_compress; Else StorageCompress (text "");
    Take StorageLarge; Take StorageLmemb; Take StorageNmemb; Take StorageDfunit;
    Checked StorageType known_type; Else StorageType (text "tch");
    Take ThreadPool; Take PriorNetmask; Take MaxQueue; Take WatcherEnabled; Take WatcherInterval;
    Take ThresholdWarn; Take ThresholdPingNg; Take ClusterRepl; Take ReplName; Take ReplPort;
    Take ReplConcurrency; Else ReplConcurrency (fun f => f ProxyConcurrency);
    Checked ReplMode known_mode; Else ReplMode (text "duplicate") ].

(** flared/ini_option.cc:445-576 *)
Definition node_reload_steps : list step :=
  [ Take LogFacility; Take MaxConnection; Take NetReadTimeout; Take ReconInterval; Take ReconBwlimit;
    Checked ReplicationType known_replication; Take ThreadPool; Servers; Take MaxQueue; Take NoreplyWindow;
    Take WatcherEnabled; Take WatcherInterval; Take ThresholdWarn; Take ThresholdPingNg;
    Take ClusterRepl; Take ReplName; Take ReplPort; Checked ReplMode known_mode ].

(** ini_option.cc:155-174 and 425-443: a config path that is not empty names the file that is read, and
    [file] is what reading it gives, [None] when it cannot be opened or boost refuses it *)
Definition with_file (path : bool) (first : vmap) (file : option vmap) : option vmap :=
  if path then match file with Some f => Some (merge first f) | None => None end else Some first.
Definition has_path (f : fields) : bool := match f ConfigPath with Str [] => false | _ => true end.
Definition names_path (cli : vmap) : bool :=
  match cli ConfigPath with Some (Str []) | None => false | _ => true end.

(** flared/ini_option.cc:111-404: [None] is -1 *)
Definition node_load (fqdn : bytes) (cli : vmap) (file : option vmap) : option ini :=
  match with_file (names_path cli) cli file with
  | Some vm =>
      match run_steps vm (mkIni node_defaults []) (node_load_steps fqdn) with
      | (i, true) => Some i
      | _ => None
      end
  | None => None
  end.

(** flared/ini_option.cc:409-584 *)
Definition node_reload (i : ini) (file : option vmap) : ini * bool :=
  match with_file (has_path (field i)) no_options file with
  | Some vm => run_steps vm i node_reload_steps
  | None => (i, false)
  end.

(** ** What is in force on a node *)
Inductive replication := Async | Sync.
Inductive mode := Duplicate | Forward.
Record live := mkLive {
  l_ini : ini;                          (* the singleton; run() reads max-connection there *)
  l_start : fields;                     (* the members as startup() read them: what is read only there *)
  l_facility : bytes;                   (* logger::open *)
  l_timeout : Z;                        (* connection_tcp::read_timeout, milliseconds *)
  l_servers : list (bytes * Z);         (* cluster::_index_servers *)
  l_interval : Z; l_bwlimit : Z;        (* cluster::_reconstruction_interval, _reconstruction_bwlimit *)
  l_replication : replication;          (* cluster::_replication_type *)
  l_pool_req : Z; l_pool_other : Z;     (* thread_pool::_max_pool_size, a size_t *)
  l_queue : Z; l_noreply : Z;           (* cluster::_max_total_thread_queue, _noreply_window_limit *)
  l_watch : option Z;                   (* the time watcher's polling interval when it polls *)
  l_warn : Z; l_ping_ng : Z;            (* time_watcher_observer's thresholds *)
  l_mode : mode;                        (* cluster_replication::_mode *)
  l_dest : option (bytes * Z * Z);      (* cluster_replication's destination and concurrency when started *)
  l_dumps : list (bytes * Z)            (* the destinations a dump was started to, latest first *)
}.

Definition num (v : value) : Z := match v with Num z => z | _ => 0 end.
Definition str (v : value) : bytes := match v with Str s => s | _ => [] end.
Definition flag (v : value) : bool := match v with Flag b => b | _ => false end.

(** cluster.h:317-326 and 279: the member stays when the text is not known *)
Definition replication_cast (s : bytes) (before : replication) : replication :=
  if beq s (s2b "async") then Async else if beq s (s2b "sync") then Sync else before.
(** cluster_replication.h:82-91 *)
Definition mode_cast (s : bytes) : option mode :=
  if beq s (s2b "duplicate") then Some Duplicate else if beq s (s2b "forward") then Some Forward else None.

(** connection_tcp::read_timeout = net_read_timeout * 1000 (flared.cc:179, 373), an int product *)
Definition timeout_of (z : Z) : res Z :=
  if (- 2147483648 <=? z * 1000) && (z * 1000 <=? 2147483647) then Ok (z * 1000) else Undef.
(** an int given to thread_pool's size_type (flared.cc:190-191, 392-395) *)
Definition size_of (z : Z) : Z := z mod 2 ^ 64.

(** lib/cluster_replication.cc:73-108: [None] is -1; the threads that send are outside the model *)
Definition repl_start (l : live) (name : bytes) (port concurrency : Z) (master : bool) : option live :=
  match l_dest l with
  | Some _ => None
  | None =>
      if concurrency <=? 0 then None
      else Some {| l_ini := l_ini l; l_start := l_start l; l_facility := l_facility l; l_timeout := l_timeout l;
                   l_servers := l_servers l; l_interval := l_interval l; l_bwlimit := l_bwlimit l;
                   l_replication := l_replication l; l_pool_req := l_pool_req l; l_pool_other := l_pool_other l;
                   l_queue := l_queue l; l_noreply := l_noreply l; l_watch := l_watch l; l_warn := l_warn l;
                   l_ping_ng := l_ping_ng l; l_mode := l_mode l;
                   l_dest := Some (name, port, concurrency);
                   l_dumps := match l_mode l with
                              | Duplicate => if master then (name, port) :: l_dumps l else l_dumps l
                              | Forward => l_dumps l
                              end |}
  end.
(** lib/cluster_replication.cc:113-134 *)
Definition with_dest (l : live) (d : option (bytes * Z * Z)) : live :=
  {| l_ini := l_ini l; l_start := l_start l; l_facility := l_facility l; l_timeout := l_timeout l;
     l_servers := l_servers l; l_interval := l_interval l; l_bwlimit := l_bwlimit l;
     l_replication := l_replication l; l_pool_req := l_pool_req l; l_pool_other := l_pool_other l;
     l_queue := l_queue l; l_noreply := l_noreply l; l_watch := l_watch l; l_warn := l_warn l;
     l_ping_ng := l_ping_ng l; l_mode := l_mode l; l_dest := d; l_dumps := l_dumps l |}.
Definition repl_stop (l : live) : live := with_dest l None.

(** flared/flared.cc:140-301, the settings only: what listening, the storage and the index server answer
    is outside the model and taken to succeed, and so is setrlimit().  [Err] is -1 *)
Definition node_start (fqdn : bytes) (cli : vmap) (file : option vmap) (master : bool) : res live :=
  match node_load fqdn cli file with
  | None => Err
  | Some i =>
      let f := field i in
      let* t := timeout_of (num (f NetReadTimeout)) in
      match mode_cast (str (f ReplMode)) with
      | None => Err
      | Some m =>
          let l := {| l_ini := i; l_start := f; l_facility := str (f LogFacility); l_timeout := t;
                      l_servers := servers i; l_interval := num (f ReconInterval);
                      l_bwlimit := num (f ReconBwlimit);
                      l_replication := replication_cast (str (f ReplicationType)) Async;
                      l_pool_req := size_of (num (f ThreadPool)); l_pool_other := size_of (num (f ThreadPool));
                      l_queue := num (f MaxQueue); l_noreply := num (f NoreplyWindow);
                      l_watch := if flag (f WatcherEnabled) then Some (num (f WatcherInterval)) else None;
                      l_warn := num (f ThresholdWarn); l_ping_ng := num (f ThresholdPingNg);
                      l_mode := m; l_dest := None; l_dumps := [] |} in
          if flag (f ClusterRepl) then
            match repl_start l (str (f ReplName)) (num (f ReplPort)) (num (f ReplConcurrency)) master with
            | Some l => Ok l
            | None => Err
            end
          else Ok l
      end
  end.

(** flared/flared.cc:361-437; the answer says whether it returned 0.  The two calls of
    set_reconstruction_interval are one here.  [master] is this node's role at the time, as the node map
    of cluster::get_node has it *)
Definition reload (l : live) (file : option vmap) (master : bool) : res (live * bool) :=
  let '(i, ok) := node_reload (l_ini l) file in
  let l := {| l_ini := i; l_start := l_start l; l_facility := l_facility l; l_timeout := l_timeout l;
              l_servers := l_servers l; l_interval := l_interval l; l_bwlimit := l_bwlimit l;
              l_replication := l_replication l; l_pool_req := l_pool_req l; l_pool_other := l_pool_other l;
              l_queue := l_queue l; l_noreply := l_noreply l; l_watch := l_watch l; l_warn := l_warn l;
              l_ping_ng := l_ping_ng l; l_mode := l_mode l; l_dest := l_dest l; l_dumps := l_dumps l |} in
  if ok then
    let f := field i in
    let* t := timeout_of (num (f NetReadTimeout)) in
    let l := {| l_ini := i; l_start := l_start l; l_facility := str (f LogFacility); l_timeout := t;
                l_servers := servers i; l_interval := num (f ReconInterval);
                l_bwlimit := num (f ReconBwlimit);
                l_replication := replication_cast (str (f ReplicationType)) (l_replication l);
                l_pool_req := size_of (num (f ThreadPool)); l_pool_other := size_of (num (f ThreadPool));
                l_queue := num (f MaxQueue); l_noreply := num (f NoreplyWindow);
                l_watch := if flag (f WatcherEnabled) then Some (num (f WatcherInterval)) else None;
                l_warn := num (f ThresholdWarn); l_ping_ng := num (f ThresholdPingNg);
                l_mode := match mode_cast (str (f ReplMode)) with Some m => m | None => l_mode l end;
                l_dest := l_dest l; l_dumps := l_dumps l |} in
    match mode_cast (str (f ReplMode)) with
    | None => Ok (l, true)
    | Some _ =>
        if flag (f ClusterRepl) then
          let name := str (f ReplName) in
          let port := num (f ReplPort) in
          let l := match l_dest l with
                   | Some (n, p, _) => if negb (beq name n) || negb (port =? p) then repl_stop l else l
                   | None => l
                   end in
          match repl_start l name port (num (f ReplConcurrency)) master with
          | Some l => Ok (l, true)
          | None => Ok (l, true)
          end
        else Ok (repl_stop l, true)
    end
  else Ok (l, false).

(** flared/flared.cc:335-341: with [threads] threads serving requests, is another connection served? *)
Definition takes_connection (l : live) (threads : Z) : bool :=
  negb (num (field (l_ini l) MaxConnection) <=? threads).

(** ** 'show variables' *)
(** ostream << of a member: [yes_no] for the bools that are shown as words (flared/show_node.cc:37-88) *)
Definition print (yes_no : bool) (v : value) : bytes :=
  match v with
  | Num z => decZ z
  | Str s => s
  | Flag b => if yes_no then s2b (if b then "true" else "false") else s2b (if b then "1" else "0")
  end.

(** show_node.cc:90-108 *)
Definition print_server (s : bytes * Z) : bytes := fst s ++ s2b ":" ++ decZ (snd s).
Definition servers_line (l : list (bytes * Z)) : bytes :=
  s2b "index_server(s):        "
  ++ match l with
     | [] => []
     | s :: l => print_server s ++ List.concat (map (fun s => s2b ", " ++ print_server s) l)
     end.

(** show_node.cc:37-88: the labels as they stand in the source, with their blanks *)
Inductive shown := Row (label : string) (yes_no : bool) (o : opt) | ServersRow.
Definition node_rows : list shown :=
  [ Row "back_log:               " true BackLog;
    Row "config_path:            " true ConfigPath;
    Row "pid_path:               " true PidPath;
    Row "daemonize:              " true Daemonize;
    Row "data_dir:               " true DataDir;
    ServersRow;
    Row "max_connection:         " true MaxConnection;
    Row "mutex_slot:             " true MutexSlot;
    Row "mysql_replication:      " true MysqlReplication;
    Row "mysql_replication_port: " true MysqlPort;
    Row "mysql_replication_id:   " true MysqlId;
    Row "mysql_replication_db:   " true MysqlDb;
    Row "mysql_replication_table:" true MysqlTable;
    Row "noreply_window_limit:   " true NoreplyWindow;
    Row "net_read_timeout:       " true NetReadTimeout;
    Row "proxy_concurrency:      " true ProxyConcurrency;
    Row "reconstruction_interval:" true ReconInterval;
    Row "reconstruction_bwlimit: " true ReconBwlimit;
    Row "replication_type:       " true ReplicationType;
    Row "server_name:            " true ServerName;
    Row "server_port:            " true ServerPort;
    Row "server_socket:          " true ServerSocket;
    Row "stack_size:             " true StackSize;
    Row "storage_ap:             " true StorageAp;
    Row "storage_bucket_size:    " true StorageBucket;
    Row "storage_cache_size:     " true StorageCache;
    Row "storage_compress:       " true StorageCompress;
    Row "storage_large:          " true StorageLarge;
    Row "storage_lmemb:          " true StorageLmemb;
    Row "storage_nmemb:          " true StorageNmemb;
    Row "storage_dfunit:         " true StorageDfunit;
    Row "storage_type:           " true StorageType;
    Row "thread_pool_size:       " true ThreadPool;
    Row "proxy_prior_netmask:    " true PriorNetmask;
    Row "max_total_thread_queue: " true MaxQueue;
    Row "time_watcher_enabled:   " true WatcherEnabled;
    Row "time_watcher_polling_interval_msec: " true WatcherInterval;
    Row "storage_access_watch_threshold_warn_msec: " true ThresholdWarn;
    Row "storage_access_watch_threshold_ping_ng_msec: " true ThresholdPingNg;
    Row "cluster_replication:    " false ClusterRepl;
    Row "cluster_replication_server_name: " true ReplName;
    Row "cluster_replication_server_port: " true ReplPort;
    Row "cluster_replication_concurrency: " true ReplConcurrency;
    Row "cluster_replication_mode: " true ReplMode ].

Definition row_line (i : ini) (r : shown) : bytes :=
  match r with
  | Row label yes_no o => s2b label ++ print yes_no (field i o)
  | ServersRow => servers_line (servers i)
  end.
Definition node_lines (i : ini) : list bytes := map (row_line i) node_rows.
Fixpoint join (l : list bytes) : bytes :=
  match l with
  | [] => []
  | [x] => x
  | x :: l => x ++ crlf ++ join l
  end.
(** flared/op_show_node.cc:63-94 and connection_tcp.cc:552-557: writeline() sends the text up to its
    first NUL *)
Definition show_variables (i : ini) : bytes := cstr (join (node_lines i)) ++ crlf ++ s2b "END" ++ crlf.

(** ** The index server *)
(** flarei/ini_option.cc:362-384: the names that boost knows.  net-read-timeout is not among them *)
Definition index_options : list opt :=
  [ Daemonize; DataDir; LogFacility; MaxConnection; MonitorThreshold; MonitorInterval; MonitorReadTimeout;
    PartitionHint; PartitionVirtual; KeyHash; PartitionSize; PartitionType; ServerName; ServerPort;
    ServerSocket; StackSize; ThreadPool; IndexDb ].
(** flarei/ini_option.cc:348-357 *)
Definition index_cli_options : list opt := ConfigPath :: PidPath :: index_options.
Definition all_options : list opt :=
  [ ConfigPath; PidPath; BackLog; Daemonize; DataDir; IndexServers; IndexServerName; IndexServerPort;
      LogFacility; MaxConnection; MutexSlot; MysqlReplication; MysqlPort; MysqlId; MysqlDb; MysqlTable;
      NoreplyWindow; NetReadTimeout; ProxyConcurrency; ReconInterval; ReconBwlimit; ReplicationType;
      ServerName; ServerPort; ServerSocket; StackSize; StorageAp; StorageFp; StorageBucket; StorageCache;
      StorageCompress; StorageLarge; StorageLmemb; StorageNmemb; StorageDfunit; StorageType; ThreadPool;
      PriorNetmask; MaxQueue; WatcherEnabled; WatcherInterval; ThresholdWarn; ThresholdPingNg; ClusterRepl;
      ReplName; ReplPort; ReplConcurrency; ReplMode; MonitorThreshold; MonitorInterval; MonitorReadTimeout;
      PartitionHint; PartitionVirtual; PartitionSize; PartitionType; KeyHash; IndexDb ].
Definition among (names : list opt) (o : opt) : bool :=
  existsb (fun x => if opt_eq_dec o x then true else false) names.
Definition only (names : list opt) (vm : vmap) : bool :=
  forallb (fun o => match vm o with Some _ => among names o | None => true end) all_options.
Definition accepted (names : list opt) (file : option vmap) : option vmap :=
  match file with Some f => if only names f then Some f else None | None => None end.

(** flarei/ini_option.cc:41-65 with flarei/ini_option.h:72-82 *)
Definition index_defaults : fields := fun o =>
  match o with
  | MaxConnection => Num 128 | MonitorThreshold => Num 3 | MonitorInterval => Num 5
  | MonitorReadTimeout => Num 1000 | NetReadTimeout => Num 600000
  | PartitionHint => Num 1 | PartitionVirtual => Num 4096 | PartitionSize => Num 1024
  | ServerPort => Num 12120 | StackSize => Num 128 | ThreadPool => Num 5
  | Daemonize => Flag false
  | _ => Str []
  end.

(** key_resolver.h's type_cast and storage.h's hash_algorithm_cast *)
Definition known_partition : bytes -> bool := one_of ["modular"].
Definition known_hash : bytes -> bool := one_of ["simple"; "bitshift"; "crc32"; "adler32"; "murmur"; "jenkins"].

(** flarei/ini_option.cc:117-122 and 147-244 *)
Definition index_load_steps (fqdn : bytes) : list step :=
  [ Take ConfigPath; Take PidPath; Take Daemonize; Take DataDir; Required DataDir; Take LogFacility;
    Take MaxConnection; Take MonitorThreshold; Take MonitorInterval; Take MonitorReadTimeout;
    Take NetReadTimeout; Take PartitionHint; Take PartitionVirtual; Take PartitionSize;
    Checked PartitionType known_partition; Else PartitionType (text "modular");
    Checked KeyHash known_hash; Else KeyHash (text "simple");
    Take ServerName; Else ServerName (fun _ => Str fqdn); Take ServerPort; Take ServerSocket;
    Take StackSize; Take ThreadPool; Take IndexDb ].
(** flarei/ini_option.cc:295-330 *)
Definition index_reload_steps : list step :=
  [ Take LogFacility; Take MaxConnection; Take MonitorThreshold; Take MonitorInterval;
    Take MonitorReadTimeout; Take NetReadTimeout; Take ThreadPool ].

(** flarei/ini_option.cc:81-252 and 257-338: a source with a name that boost does not know is refused *)
Definition index_load (fqdn : bytes) (cli : vmap) (file : option vmap) : option ini :=
  if only index_cli_options cli then
    match with_file (names_path cli) cli (accepted index_options file) with
    | Some vm =>
        match run_steps vm (mkIni index_defaults []) (index_load_steps fqdn) with
        | (i, true) => Some i
        | _ => None
        end
    | None => None
    end
  else None.
Definition index_reload (i : ini) (file : option vmap) : ini * bool :=
  match with_file (has_path (field i)) no_options (accepted index_options file) with
  | Some vm => run_steps vm i index_reload_steps
  | None => (i, false)
  end.

(** What is in force on an index server. *)
Record index_live := mkIndexLive {
  x_ini : ini;                       (* run() reads max-connection there *)
  x_start : fields;                  (* the members as startup() read them *)
  x_facility : bytes;
  x_timeout : Z;                     (* connection_tcp::read_timeout, milliseconds *)
  x_monitor : Z * Z * Z;             (* cluster's members: threshold, interval, read timeout *)
  x_told : Z * Z * Z;                (* what the monitoring threads were told last *)
  x_pool_req : Z; x_pool_other : Z
}.

(** cluster.cc:1185-1225: each call stores one member and tells the threads all three *)
Definition set_threshold (m : Z * Z * Z) (z : Z) : Z * Z * Z := let '(_, i, r) := m in (z, i, r).
Definition set_interval (m : Z * Z * Z) (z : Z) : Z * Z * Z := let '(t, _, r) := m in (t, z, r).
Definition set_read_timeout (m : Z * Z * Z) (z : Z) : Z * Z * Z := let '(t, i, _) := m in (t, i, z).
Definition set_monitor (f : fields) (m : Z * Z * Z) : Z * Z * Z :=
  set_read_timeout (set_interval (set_threshold m (num (f MonitorThreshold))) (num (f MonitorInterval)))
    (num (f MonitorReadTimeout)).

(** flarei/flarei.cc:127-288, the settings that reload() may change *)
Definition index_start (fqdn : bytes) (cli : vmap) (file : option vmap) : res index_live :=
  match index_load fqdn cli file with
  | None => Err
  | Some i =>
      let f := field i in
      let* t := timeout_of (num (f NetReadTimeout)) in
      let m := set_monitor f (0, 0, 0) in
      Ok {| x_ini := i; x_start := f; x_facility := str (f LogFacility); x_timeout := t;
            x_monitor := m; x_told := m;
            x_pool_req := size_of (num (f ThreadPool)); x_pool_other := size_of (num (f ThreadPool)) |}
  end.
(** flarei/flarei.cc:343-370: only the pool of the requests gets the new size *)
Definition index_reloaded (l : index_live) (file : option vmap) : res (index_live * bool) :=
  let '(i, ok) := index_reload (x_ini l) file in
  if ok then
    let f := field i in
    let* t := timeout_of (num (f NetReadTimeout)) in
    let m := set_monitor f (x_monitor l) in
    Ok ({| x_ini := i; x_start := x_start l; x_facility := str (f LogFacility); x_timeout := t;
           x_monitor := m; x_told := m;
           x_pool_req := size_of (num (f ThreadPool)); x_pool_other := x_pool_other l |}, true)
  else
    Ok ({| x_ini := i; x_start := x_start l; x_facility := x_facility l; x_timeout := x_timeout l;
           x_monitor := x_monitor l; x_told := x_told l;
           x_pool_req := x_pool_req l; x_pool_other := x_pool_other l |}, false).

(** ** The loop that notices SIGHUP *)
(** flared.cc:306-356 and flarei.cc:293-338.  The file is a number that grows with each edit. *)
Inductive place :=
| Check1      (* before the first if (reload_request) *)
| Reload1     (* inside reload(), the file is read *)
| Waiting     (* before and inside server::wait() *)
| Reload2
| Accepting.  (* the loop over the accepted connections *)
Record loop := mkLoop { at_ : place; asked : bool; file_now : N; loaded : N }.
Inductive happening :=
| Edit        (* somebody writes the file *)
| Hup         (* sa_hup_handler (flared.cc:70-76) *)
| Run.        (* the main thread goes on to the next place *)
(** one step of the main thread: reload() reads the file when it is entered, and the request is
    forgotten after it has returned (flared.cc:321-325, 329-333) *)
Definition run_loop (s : loop) : loop :=
  match at_ s with
  | Check1 => if asked s then mkLoop Reload1 (asked s) (file_now s) (file_now s)
              else mkLoop Waiting (asked s) (file_now s) (loaded s)
  | Reload1 => mkLoop Waiting false (file_now s) (loaded s)
  | Waiting => if asked s then mkLoop Reload2 (asked s) (file_now s) (file_now s)
               else mkLoop Accepting (asked s) (file_now s) (loaded s)
  | Reload2 => mkLoop Accepting false (file_now s) (loaded s)
  | Accepting => mkLoop Check1 (asked s) (file_now s) (loaded s)
  end.
Definition happen (s : loop) (h : happening) : loop :=
  match h with
  | Edit => mkLoop (at_ s) (asked s) (N.succ (file_now s)) (loaded s)
  | Hup => mkLoop (at_ s) true (file_now s) (loaded s)
  | Run => run_loop s
  end.
